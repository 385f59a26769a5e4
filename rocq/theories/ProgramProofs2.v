(* The files written until the end of the tracking. *)
From Coq Require Import ZArith String List Bool Lia Arith.
From Verif Require Import Base BaseFacts Num VecModel ParticleModel ParticleSpec BunchModel BunchSpec BeamSpec BeamProofs
  DriverModel DriverSpec DriverProofs DriverProofs2 DriverProofs3 ElementModel FelModel ObserverModel ObserverSpec ObserverProofs3 ObserverProofs5 ProbeProofs
  LoggerModel LoggerSpec LoggerProofs LoggerProofs2 LoggerProofs3 LoggerProofs4 SddsModel SddsSpec SddsProofs OutputModel ParserModel
  ProgramModel ProgramSpec ProgramProofs.
Import ListNotations.
Local Open Scope list_scope.
Local Open Scope res_scope.
Local Open Scope nat_scope.

Lemma forall2_fun {A B} (R : A -> B -> Prop) : (forall a b c, R a b -> R a c -> b = c) ->
  forall l m n, Forall2 R l m -> Forall2 R l n -> m = n.
Proof.
  intros D l m n H. revert n. induction H as [|a b l m H H' IH]; intros n N; inversion N as [|x c y n' E E']; subst; [reflexivity|].
  rewrite (D _ _ _ H E), (IH _ E'). reflexivity.
Qed.
Lemma forall2_head {A B} (R : A -> B -> Prop) a l fs : Forall2 R (a :: l) fs -> exists f r, fs = f :: r /\ R a f /\ Forall2 R l r.
Proof. intros H. inversion H; subst. eauto. Qed.
Lemma concat_map_flat {A B} (f : A -> list B) l : concat (map f l) = flat_map f l.
Proof. induction l as [|a l IH]; cbn; [|rewrite IH]; reflexivity. Qed.

Lemma len_concat {A} (l : list (list A)) : length (concat l) = list_sum (map (@length A) l).
Proof. induction l as [|a l IH]; cbn; [|rewrite app_length, IH]; reflexivity. Qed.

Section P.
Context {T : Type} {NT : Num T} {TT : Trans T} (absBF : bunch T -> T -> T).
Variable i : pinput (T := T).
Notation NOTS := (bmNOTS (inBeam i)).
Notation lat := (inLattice i, inFel i).
Notation bm0 := (inBeam i).
Notation srun := (sim_run full_field inter_init inter_step NOTS lat bm0).
Notation sm := (sim (T := T) (L := lattice_T T)).

Lemma state_fun j (s s' : sm) : state_at i j s -> state_at i j s' -> s = s'.
Proof. unfold state_at. intros H H'. rewrite H in H'. apply Ok_inj in H'. exact H'. Qed.
Lemma bunches_fun ib st (bs bs' : list (bunch T)) :
  Forall2 (fun j b => exists s, state_at i j s /\ nth_error (bmB (sMaster s)) ib = Some b) st bs ->
  Forall2 (fun j b => exists s, state_at i j s /\ nth_error (bmB (sMaster s)) ib = Some b) st bs' -> bs = bs'.
Proof.
  apply forall2_fun. intros j b c (s & S1 & N1) (s' & S2 & N2). rewrite (state_fun _ _ _ S1 S2) in N1. congruence.
Qed.
Lemma tracked_fun st (bs bs' : list (list (particle T))) :
  Forall2 (fun j b => exists s, state_at i j s /\ sTracked s = b) st bs ->
  Forall2 (fun j b => exists s, state_at i j s /\ sTracked s = b) st bs' -> bs = bs'.
Proof.
  apply forall2_fun. intros j b c (s & S1 & N1) (s' & S2 & N2). rewrite (state_fun _ _ _ S1 S2) in N1. congruence.
Qed.

Notation result := (@log_result T NT absBF _ full_field inter_init inter_step NOTS lat bm0 (steps i)).

Lemma traj_vals (nop : Z) (bs : list (bunch T)) : Forall (fun b => Z.to_nat nop <= length b) bs -> (0 <= 6 * nop)%Z ->
  Forall (fun v : list T => Z.of_nat (length v) = (nop * 6)%Z) (map (coordinates (Z.to_nat nop)) bs).
Proof.
  intros H N. induction H as [|b bs H H' IH]; constructor; [|exact IH]. rewrite coordinates_len by exact H. lia.
Qed.
Lemma probe_vals (nop : Z) (bs : list (list (particle T))) : Forall (fun b => Z.to_nat nop <= length b) bs -> (0 <= 16 * nop)%Z ->
  Forall (fun v : list T => Z.of_nat (length v) = (nop * 16)%Z) (map (probe_values (Z.to_nat nop)) bs).
Proof.
  intros H N. induction H as [|b bs H H' IH]; constructor; [|exact IH]. rewrite probe_values_len by exact H. lia.
Qed.

Lemma log_iff (s : sm) l l' fn f : state_at i (steps i) s -> match l with LProbe _ => False | _ => True end -> result l l' ->
  log_file (sMaster s) (l', fn) = Ok f <-> log_written absBF i (l, fn) f.
Proof.
  intros S K R. destruct l as [ib p|ib p|p]; [| |destruct K].
  - destruct R as (n & bs & -> & F & ->). cbn [log_file fst snd].
    rewrite (bunch_of bm0 [] s n ltac:(lia)) by exact (proj1 (sim_lens _ _ _ _ _ _ _ _ S)).
    split.
    + destruct (nth_error (bmB (sMaster s)) n) as [b|] eqn:E; [|discriminate]. intros H. bget H as d Ed. apply Ok_inj in H. subst f.
      eapply G_par; eauto.
    + intros H. inversion H as [ib' p' fn' bs' s' b d F' S' N' E X Y|]; subst. apply Nat2Z.inj in X. subst ib'.
      rewrite (state_fun _ _ _ S' S) in N'. rewrite N'. rewrite (bunches_fun _ _ _ _ F F'). rewrite E. reflexivity.
  - destruct R as (n & bs & -> & F & -> & Q & N). cbn [log_file fst snd]. unfold tlog_file.
    rewrite blog_write_of; [|lia|apply traj_vals; [exact Q|lia]].
    rewrite map_length, concat_map_flat.
    split.
    + match goal with |- context [(?a <? ?b)%Z] => destruct (Z.ltb_spec a b) as [C|C] end; cbn [bind]; [|discriminate].
      intros H. apply Ok_inj in H. subst f. apply (G_traj absBF i n p fn bs F). rewrite (Z.mul_comm 6). exact C.
    + intros H. inversion H as [|ib' p' fn' bs' F' n' C X Y]; subst. apply Nat2Z.inj in X. subst ib'.
      pose proof (bunches_fun _ _ _ _ F F') as E. subst bs'. subst n'.
      match goal with |- context [(?a <? ?b)%Z] => destruct (Z.ltb_spec a b) as [C'|C'] end; [reflexivity|]. rewrite (Z.mul_comm 6) in C. exact (False_ind _ (Zlt_not_le _ _ C C')).
Qed.

(* the loggers other than the probe *)
Lemma logs_iff (s : sm) : state_at i (steps i) s -> forall ls ls', Forall2 (fun l l' => result (fst l) l') ls ls' ->
  Forall (fun l => match fst l with LProbe _ => False | _ => True end) ls -> forall fs,
  map_res (log_file (sMaster s)) (combine ls' (map snd ls)) = Ok fs <-> Forall2 (log_written absBF i) ls fs.
Proof.
  intros S ls ls' F. induction F as [|[l fn] l' ls ls' R F IH]; intros K fs; cbn [combine map map_res].
  - split; [intros H; apply Ok_inj in H; subst; constructor|intros H; inversion H; reflexivity].
  - inversion K as [|x y K1 K2]; subst. cbn [fst snd] in *. split.
    + intros H. bget H as f Ef. bget H as r Er. apply Ok_inj in H. subst fs. constructor; [|apply IH; assumption].
      apply (log_iff s l l' fn f S K1 R). exact Ef.
    + intros H. apply forall2_head in H. destruct H as (f & r & -> & A & B). apply (log_iff s l l' fn f S K1 R) in A.
      rewrite A. cbn [bind]. rewrite (proj2 (IH K2 r) B). reflexivity.
Qed.

Lemma NOP_count (tb : beam T) n : beam_NOP tb = Ok n -> n = count tb.
Proof.
  unfold beam_NOP, count. assert (G : forall (l : list (bunch T)) z, fold_res (fun s b => iadd s (bunch_NOP b)) l z = Ok n -> n = (z + Z.of_nat (length (concat l)))%Z).
  { induction l as [|b l IH]; intros z H; cbn [fold_res concat] in *; [apply Ok_inj in H; cbn; lia|].
    bget H as y Ey. apply IH in H. unfold iadd, to_int in Ey. destruct (in_int _); [|discriminate]. apply Ok_inj in Ey. subst. rewrite app_length. unfold bunch_NOP. lia. }
  intros H. apply G in H. lia.
Qed.
Lemma probe_iff (s : sm) P tb p p' : state_at i (steps i) s -> prlog_new tb (piStep (inProbe i)) (piNumber (inProbe i)) = Ok p ->
  count tb = first_share bm0 P -> (first_share bm0 P < 2 ^ 32)%Z -> piReq (inProbe i) = true -> (0 <= first_share bm0 P)%Z -> result (LProbe p) p' -> forall f,
  log_file (sMaster s) (p', piFile (inProbe i)) = Ok f <-> probe_written i P [f].
Proof.
  intros S N C SM Q SP R f. destruct R as (pss & F & -> & LE & B).
  assert (NP : blNOP p = Z.min (first_share bm0 P) (u32 (piNumber (inProbe i))) /\ blStep p = u32 (piStep (inProbe i))).
  { unfold prlog_new in N. destruct (beam_NOP tb) as [n| | |] eqn:E; try discriminate. cbn [bind] in N. apply Ok_inj in N. subst p. cbn [blNOP blStep].
    split; [|reflexivity]. pose proof (NOP_count tb n E) as E'. rewrite E', C. rewrite (u32_id (first_share bm0 P)) by lia. reflexivity. }
  destruct NP as (NP & ST). rewrite NP, ST in *. cbn [log_file fst snd]. unfold prlog_file.
  rewrite blog_write_of; [|lia|apply probe_vals; [exact LE|lia]]. rewrite map_length, concat_map_flat.
  set (nop := Z.min (first_share bm0 P) (u32 (piNumber (inProbe i)))) in *.
  split.
  - match goal with |- context [(?a <? ?b)%Z] => destruct (Z.ltb_spec a b) as [D|D] end; cbn [bind]; [|discriminate].
    intros H. apply Ok_inj in H. subst f. apply (B_some i P pss Q F). fold nop. rewrite (Z.mul_comm 16). exact D.
  - intros H. inversion H as [|pss' Q' F' n nop' D X]; subst. pose proof (tracked_fun _ _ _ F F') as E. subst pss'.
    subst n nop'. fold nop in D. fold nop.
    match goal with |- context [(?a <? ?b)%Z] => destruct (Z.ltb_spec a b) as [D'|D'] end; [reflexivity|]. rewrite (Z.mul_comm 16) in D. exact (False_ind _ (Zlt_not_le _ _ D D')).
Qed.

(* watch files *)
Lemma watch_iff (s : sm) j w f : state_at i j s -> (6 * count bm0 <= int_max)%Z -> forall m, sMaster s = m ->
  watch_file (w, m) = Ok f <-> watch_written i (j, w) f.
Proof.
  intros S C m M. destruct w as [k fn].
  assert (L : length (concat (bmB (sMaster s))) = length (concat (bmB bm0))).
  { destruct (sim_lens _ _ _ _ _ _ _ _ S) as (L & _). rewrite !len_concat, L. reflexivity. }
  subst m. destruct k; cbn [watch_file].
  - rewrite hdf5_ok by (unfold beam_particles; rewrite L; exact C). cbn [bind fst]. split.
    + intros H. apply Ok_inj in H. subst f. apply (W_hdf5 i j fn s S).
    + intros H. inversion H as [j' fn' s' S' ps X Y|]; subst. pose proof (state_fun _ _ _ S' S) as E. subst s'. reflexivity.
  - split.
    + intros H. bget H as d Ed. apply Ok_inj in H. subst f. eapply W_sdds; eauto.
    + intros H. inversion H as [|j' fn' s' d S' E X Y]; subst. rewrite (state_fun _ _ _ S' S) in E. rewrite E. reflexivity.
Qed.
Lemma watches_iff : (6 * count bm0 <= int_max)%Z -> forall jws ws,
  Forall2 (fun jw f => fst f = snd jw /\ master_in_step full_field inter_init inter_step NOTS lat bm0 (fst jw) (snd f)) jws ws -> forall fs,
  map_res watch_file ws = Ok fs <-> Forall2 (watch_written i) jws fs.
Proof.
  intros C jws ws F. induction F as [|[j w] [w' m] jws ws [A (s & S & M)] F IH]; intros fs; cbn [map_res].
  - split; [intros H; apply Ok_inj in H; subst; constructor|intros H; inversion H; reflexivity].
  - cbn [fst snd] in *. subst w'. split.
    + intros H. bget H as f Ef. bget H as r Er. apply Ok_inj in H. subst fs. constructor; [|apply IH; assumption].
      apply (watch_iff s j w f S C m M). exact Ef.
    + intros H. apply forall2_head in H. destruct H as (f & r & -> & A & B). apply (watch_iff s j w f S C m M) in A. rewrite A. cbn [bind].
      rewrite (proj2 (IH r) B). reflexivity.
Qed.
End P.
