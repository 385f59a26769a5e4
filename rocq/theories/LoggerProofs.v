From Coq Require Import ZArith List Bool Lia Arith.
From Verif Require Import Base BaseFacts Num VecModel ParticleModel ParticleSpec BunchModel BunchSpec BeamSpec BeamProofs
  DriverModel DriverSpec DriverProofs DriverProofs2 DriverProofs3 ObserverProofs3 ObserverProofs5 LoggerModel LoggerSpec.
Import ListNotations.
Local Open Scope res_scope.
Local Open Scope nat_scope.

(* ---- the steps ---- *)
Lemma due_0 s : 0 < s -> due s 0 = [0].
Proof. intros H. unfold due. rewrite Nat.div_0_l by lia. reflexivity. Qed.
Lemma div_succ s k : 0 < s -> S k / s = k / s + (if S k mod s =? 0 then 1 else 0).
Proof.
  intros H. pose proof (Nat.div_mod (S k) s ltac:(lia)) as D. pose proof (Nat.mod_upper_bound (S k) s ltac:(lia)) as B.
  destruct (S k mod s) as [|r] eqn:E.
  - cbn. destruct (S k / s) as [|q] eqn:Q; [lia|].
    assert (k / s = q); [|lia]. symmetry. apply (Nat.div_unique k s q (s - 1)); nia.
  - cbn. symmetry. rewrite Nat.add_0_r. symmetry. symmetry. rewrite (Nat.div_unique k s (S k / s) r); nia.
Qed.
Lemma due_S s k : 0 < s -> due s (S k) = due s k ++ (if S k mod s =? 0 then [S k] else []).
Proof.
  intros H. unfold due. rewrite div_succ by exact H. destruct (S k mod s =? 0) eqn:E.
  - rewrite Nat.add_1_r, (seq_S (S (k / s)) 0), map_app. f_equal. cbn [map]. f_equal.
    apply Nat.eqb_eq in E. pose proof (Nat.div_mod (S k) s ltac:(lia)) as D. rewrite E in D.
    rewrite div_succ, (proj2 (Nat.eqb_eq _ _) E) in D by exact H. nia.
  - rewrite Nat.add_0_r, app_nil_r. reflexivity.
Qed.
Lemma due_length s k : length (due s k) = S (k / s).
Proof. unfold due. rewrite map_length, seq_length. reflexivity. Qed.
Lemma due_le s k j : In j (due s k) -> j <= k.
Proof.
  unfold due. rewrite in_map_iff. intros (i & <- & Hi). apply in_seq in Hi.
  destruct s as [|s]; [lia|]. pose proof (Nat.div_mod k (S s) ltac:(lia)). nia.
Qed.
Lemma due_large s k : k < s -> due s k = [0].
Proof. intros H. unfold due. rewrite Nat.div_small by exact H. reflexivity. Qed.

Lemma zseq_snoc k : zseq 0 (S k) = zseq 0 k ++ [Z.of_nat k].
Proof. rewrite !zseq_seq, seq_S, map_app. reflexivity. Qed.

Lemma requested_iff (s : Z) (j : nat) : (0 < s)%Z -> (Z.of_nat j < 2 ^ 32)%Z ->
  log_requested s (Z.of_nat j) = Ok (j mod Z.to_nat s =? 0).
Proof.
  intros H B. unfold log_requested. destruct (Z.eqb_spec s 0); [lia|]. unfold u32. rewrite (Z.mod_small (Z.of_nat j)) by lia.
  f_equal. rewrite <- (Z2Nat.id s) at 1 by lia. rewrite <- Nat2Z.inj_mod.
  destruct (Nat.eqb_spec (j mod Z.to_nat s) 0) as [->|N]; [reflexivity|]. apply Z.eqb_neq. lia.
Qed.

Section P.
Context {T : Type} {NT : Num T} (absBF : bunch T -> T -> T).
Context {L : Type} (Fof : L -> field_fn T) (linit lstep : beam T -> L -> res L).
Context {W : Type}.
Notation upd := (@logger_update T NT absBF L).
Notation drun := (driver_run Fof linit lstep).
Notation lrun := (@logged_run T NT absBF L Fof linit lstep W).

Lemma update_step n l l' : upd n l = Ok l' -> logger_step l' = logger_step l.
Proof.
  destruct l as [ib p|ib p|p]; cbn [logger_update].
  - destruct (beam_bunch _ ib); [|discriminate]. intros H. apply Ok_inj in H. subst. reflexivity.
  - destruct (beam_bunch _ ib); [|discriminate]. unfold tlog_update, blog_push.
    destruct (buf_write _ _); try discriminate. intros H. apply Ok_inj in H. subst. reflexivity.
  - unfold prlog_update, blog_push. destruct (beam_bufferProbe _ _); try discriminate. cbn [bind].
    destruct (buf_write _ _); try discriminate. intros H. apply Ok_inj in H. subst. reflexivity.
Qed.

(* a logger fed with the states of node 0 in the given steps *)
Definition feed (P NOTS : Z) (lat : L) (bms : list (beam T)) (steps : list nat) (l : logger T) : res (logger T) :=
  fold_res (fun l j => ns <- drun P NOTS lat bms j;; n <- first_node ns;; upd n l) steps l.

Lemma drun_S P NOTS lat bms k : drun P NOTS lat bms (S k) =
  (ns <- drun P NOTS lat bms k;; driver_step Fof lstep ns (Z.of_nat k)).
Proof.
  unfold driver_run. destruct (driver_start _ _ _ _ _ _) as [ns| | |]; cbn [bind]; auto. rewrite zseq_snoc, fold_res_app.
  destruct (fold_res _ _ ns) as [n2| | |]; cbn [bind fold_res]; auto. destruct (driver_step _ _ _ _); reflexivity.
Qed.
Lemma lrun_S P NOTS lat bms ls ws k : lrun P NOTS lat bms ls ws (S k) =
  (s <- lrun P NOTS lat bms ls ws k;; logged_step absBF Fof lstep ws s (Z.of_nat k)).
Proof.
  unfold logged_run. destruct (driver_start _ _ _ _ _ _) as [ns| | |]; cbn [bind]; auto.
  destruct (log_init _ _ _ _) as [o| | |]; cbn [bind]; auto.
  rewrite zseq_snoc, fold_res_app.
  destruct (fold_res _ _ (ns, o)) as [n2| | |]; cbn [bind fold_res]; auto. destruct (logged_step _ _ _ _ _ _); reflexivity.
Qed.

Definition due_of (l : logger T) (k : nat) : list nat := due (Z.to_nat (logger_step l)) k.

Lemma forall2_trans {A B C} (R : A -> B -> Prop) (S : B -> C -> Prop) (U : A -> C -> Prop) :
  (forall a b c, R a b -> S b c -> U a c) -> forall l m n, Forall2 R l m -> Forall2 S m n -> Forall2 U l n.
Proof. intros H l m n H1. revert n. induction H1; intros k H2; inversion H2; subst; constructor; eauto. Qed.

(* the files written in the steps up to k *)
Fixpoint watch_files (P NOTS : Z) (lat : L) (bms : list (beam T)) (ws : list (@watch W)) (k : nat) : res (list (W * beam T)) :=
  prev <- match k with O => Ok [] | S j => watch_files P NOTS lat bms ws j end;;
  ns <- drun P NOTS lat bms k;; n <- first_node ns;;
  Ok (prev ++ map (fun w => (snd w, nMaster n)) (filter (fun w => (fst w =? Z.of_nat k)%Z) ws)).

(* what a run with loggers has done *)
Lemma logged_run_inv P NOTS lat bms ls ws : Forall (fun l => (0 < logger_step l)%Z) ls ->
  forall k ns ls' fs, (Z.of_nat k < 2 ^ 32)%Z -> lrun P NOTS lat bms ls ws k = Ok (ns, (ls', fs)) ->
  drun P NOTS lat bms k = Ok ns /\
  Forall2 (fun l l' => logger_step l' = logger_step l /\ feed P NOTS lat bms (due_of l k) l = Ok l') ls ls' /\
  watch_files P NOTS lat bms ws k = Ok fs.
Proof.
  intros HS. induction k as [|k IH]; intros ns ls' fs Hk H.
  - unfold logged_run in H. cbn [zseq] in H. cbn [watch_files bind].
    assert (D0 : drun P NOTS lat bms 0 = driver_start Fof linit P NOTS lat bms).
    { unfold driver_run. cbn [zseq]. destruct (driver_start _ _ _ _ _ _); reflexivity. }
    destruct (driver_start Fof linit P NOTS lat bms) as [ns0| | |] eqn:E; try discriminate. cbn [bind] in H.
    destruct (log_init absBF ws ls ns0) as [o| | |] eqn:EO; try discriminate. cbn in H. apply Ok_inj in H.
    assert (ns0 = ns) by congruence. subst ns0. assert (o = (ls', fs)) by congruence. subst o. clear H.
    rewrite D0. cbn [bind]. unfold log_init in EO. destruct (first_node ns) as [n| | |] eqn:EN; try discriminate. cbn [bind] in EO |- *.
    destruct (map_res (upd n) ls) as [ls1| | |] eqn:EM; try discriminate. cbn [bind] in EO. apply Ok_inj in EO.
    assert (ls1 = ls') by congruence. subst ls1. assert (fs = watch_step 0 n ws) by congruence. subst fs.
    split; [reflexivity|split; [|reflexivity]].
    apply map_res_forall2 in EM. clear -EM HS E EN D0. induction EM as [|l l' r r' H1 H2 IH2]; constructor; auto.
    + split; [exact (update_step _ _ _ H1)|]. apply Forall_inv in HS. unfold due_of, feed. rewrite due_0 by lia. cbn [fold_res].
      rewrite D0. cbn [bind]. rewrite EN. cbn [bind]. rewrite H1. reflexivity.
    + apply IH2. exact (Forall_inv_tail HS).
  - rewrite lrun_S in H. destruct (lrun P NOTS lat bms ls ws k) as [[ns0 [ls0 fs0]]| | |] eqn:E; try discriminate.
    cbn [bind] in H. destruct (IH ns0 ls0 fs0 ltac:(lia) eq_refl) as (I1 & I2 & I3).
    unfold logged_step in H. cbn [fst snd] in H.
    destruct (driver_step Fof lstep ns0 (Z.of_nat k)) as [ns1| | |] eqn:ED; try discriminate. cbn [bind] in H.
    destruct (first_node ns1) as [n| | |] eqn:EN; try discriminate. cbn [bind] in H.
    unfold log_step in H. cbn [fst snd] in H.
    destruct (map_res (log_one absBF (Z.of_nat k + 1) n) ls0) as [ls1| | |] eqn:EM; try discriminate. cbn [bind] in H.
    apply Ok_inj in H. assert (ns1 = ns) by congruence. subst ns1. assert (ls1 = ls') by congruence. subst ls1.
    assert (fs = fs0 ++ watch_step (Z.of_nat k + 1) n ws) by congruence. subst fs. clear H.
    assert (DS : drun P NOTS lat bms (S k) = Ok ns) by (rewrite drun_S, I1; exact ED).
    split; [exact DS|split].
    + apply map_res_forall2 in EM. assert (EM' := EM). clear EM.
      assert (HS0 : Forall2 (fun l l' => (0 < logger_step l)%Z /\ logger_step l' = logger_step l /\ feed P NOTS lat bms (due_of l k) l = Ok l') ls ls0).
      { clear -HS I2. induction I2; constructor; [split; [exact (Forall_inv HS)|assumption]|apply IHI2; exact (Forall_inv_tail HS)]. }
      revert HS0 EM'. apply forall2_trans. intros l l0 l1 (B0 & B1 & B2) B3.
      unfold log_one in B3. replace (Z.of_nat k + 1)%Z with (Z.of_nat (S k)) in B3 by lia.
      rewrite B1, requested_iff in B3 by (try exact B0; lia). cbn [bind] in B3.
      assert (G : logger_step l1 = logger_step l0).
      { destruct (S k mod _ =? 0); [exact (update_step _ _ _ B3)|]. apply Ok_inj in B3. congruence. }
      split; [congruence|]. unfold due_of. rewrite due_S by lia. unfold feed. rewrite fold_res_app.
      fold (feed P NOTS lat bms (due (Z.to_nat (logger_step l)) k) l). fold (due_of l k). rewrite B2. cbn [bind].
      destruct (S k mod _ =? 0); cbn [fold_res].
      * rewrite DS. cbn [bind]. rewrite EN. cbn [bind]. rewrite B3. reflexivity.
      * exact B3.
    + cbn [watch_files]. rewrite I3. cbn [bind]. rewrite DS. cbn [bind]. rewrite EN. cbn [bind]. unfold watch_step.
      replace (Z.of_nat k + 1)%Z with (Z.of_nat (S k)) by lia. reflexivity.
Qed.

(* loggers which can always record do not change how the run ends *)
Lemma logged_run_ok P NOTS lat bms ls ws (good : logger T -> Prop) :
  (forall l, good l -> (0 < logger_step l)%Z) ->
  Forall good ls -> forall k,
  (Z.of_nat k < 2 ^ 32)%Z ->
  (forall j ns, j <= k -> drun P NOTS lat bms j = Ok ns -> exists n, first_node ns = Ok n /\
     forall l, good l -> exists l', upd n l = Ok l' /\ good l') ->
  match drun P NOTS lat bms k with
  | Ok ns => exists ls' fs, lrun P NOTS lat bms ls ws k = Ok (ns, (ls', fs)) /\ Forall good ls'
  | Throw e => lrun P NOTS lat bms ls ws k = Throw e
  | UB => lrun P NOTS lat bms ls ws k = UB
  | Loop => lrun P NOTS lat bms ls ws k = Loop
  end.
Proof.
  intros HS HG. induction k as [|k IH]; intros Hk HN.
  - specialize (HN 0). assert (D0 : drun P NOTS lat bms 0 = driver_start Fof linit P NOTS lat bms).
    { unfold driver_run. cbn [zseq]. destruct (driver_start _ _ _ _ _ _); reflexivity. }
    rewrite D0 in HN |- *. unfold logged_run. destruct (driver_start Fof linit P NOTS lat bms) as [ns| | |]; cbn [bind]; auto.
    destruct (HN ns ltac:(lia) eq_refl) as (n & EN & HU). unfold log_init. rewrite EN. cbn [bind].
    assert (G : exists ls', map_res (upd n) ls = Ok ls' /\ Forall good ls').
    { clear -HG HU. induction HG as [|l r H1 H2 IH]; [exists []; auto|]. destruct (HU l H1) as (l' & E1 & G1).
      destruct IH as (r' & E2 & G2). exists (l' :: r'). cbn. rewrite E1. cbn. rewrite E2. auto. }
    destruct G as (ls' & E & G). rewrite E. cbn. eauto.
  - assert (IH' := IH ltac:(lia) ltac:(intros j ns Hj; apply HN; lia)). clear IH. rewrite lrun_S.
    assert (HN1 := HN (S k)). rewrite drun_S in HN1 |- *.
    destruct (drun P NOTS lat bms k) as [ns0| | |] eqn:E0; try (rewrite IH'; reflexivity).
    destruct IH' as (ls0 & fs0 & -> & G0). cbn [bind]. unfold logged_step. cbn [fst snd]. cbn [bind] in HN1.
    destruct (driver_step Fof lstep ns0 (Z.of_nat k)) as [ns| | |] eqn:ED; cbn [bind]; auto.
    destruct (HN1 ns ltac:(lia) eq_refl) as (n & EN & HU). rewrite EN. cbn [bind]. unfold log_step. cbn [fst snd].
    replace (Z.of_nat k + 1)%Z with (Z.of_nat (S k)) by lia.
    assert (G : exists ls', map_res (log_one absBF (Z.of_nat (S k)) n) ls0 = Ok ls' /\ Forall good ls').
    { clear -G0 HU HS Hk. induction G0 as [|l r H1 H2 IH]; [exists []; auto|].
      destruct IH as (r' & E2 & G2). cbn [map_res]. unfold log_one at 1. rewrite requested_iff by (auto; lia). cbn [bind].
      destruct (S k mod _ =? 0).
      - destruct (HU l H1) as (l' & E1 & G1). rewrite E1. cbn [bind]. rewrite E2. cbn. eauto.
      - cbn [bind]. rewrite E2. cbn. eauto. }
    destruct G as (ls' & E & G). rewrite E. cbn. eauto.
Qed.
End P.
