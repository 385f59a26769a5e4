(* The objects of the program: what every constructor, destructor and step does
   to the heap. *)
From Coq Require Import List Bool Arith Lia Permutation.
From Verif Require Import Base MemModel MemSpec MemProofs.
Import ListNotations.
Local Open Scope mem_scope.

(* ----- the cells of an object ----- *)
Definition cp (p : nat) : cell := Cell p One KParticle.
Definition ct (p : nat) : cell := Cell p One KTrace.
Definition cbuf (p : nat) : cell := Cell p Arr KBuffer.
Definition fp_bunch (b : m_bunch) : list cell := Cell (mb_a b) One KBunch :: map cp (mb_ps b).
Definition fp_beam (b : m_beam) : list cell := Cell (me_a b) One KBeam :: flat_map fp_bunch (me_bs b).
Definition fp_logger (l : m_logger) : list cell := Cell (ml_a l) One KLogger :: map cbuf (ml_data l).
Definition fp_elem (e : m_elem) : list cell :=
  match e with
  | MElem a => [Cell a One KElement]
  | MSource a tr => Cell a One KElement :: flat_map (fun p => [ct (fst p); ct (snd p)]) tr
  | MFel a => [Cell a One KFel]
  end.
Definition fp_buf (o : m_obs) : list cell :=
  match mo_buf o with Some b => [Cell b Arr KSnap] | None => [] end.
Definition fp_obs (o : m_obs) : list cell := Cell (mo_a o) One KObserver :: map ct (mo_traces o) ++ fp_buf o.
Definition left_obs (o : m_obs) : list cell := if 0 <? mo_stored o then [] else fp_buf o.

Lemma addrs_app a b : addrs (a ++ b) = addrs a ++ addrs b.
Proof. apply map_app. Qed.
Lemma addrs_map {A} (f : A -> cell) l : addrs (map f l) = map (fun x => c_addr (f x)) l.
Proof. apply map_map. Qed.
Lemma addrs_flat {A} (f : A -> list cell) l : addrs (flat_map f l) = flat_map (fun x => addrs (f x)) l.
Proof. induction l; cbn [flat_map]; [reflexivity|rewrite addrs_app; congruence]. Qed.
Lemma addrs_cp l : addrs (map cp l) = l.
Proof. rewrite addrs_map. apply map_id. Qed.
Lemma addrs_ct l : addrs (map ct l) = l.
Proof. rewrite addrs_map. apply map_id. Qed.
Lemma addrs_cbuf l : addrs (map cbuf l) = l.
Proof. rewrite addrs_map. apply map_id. Qed.
Lemma flat_map_ext' {A B} (f g : A -> list B) l : (forall x, f x = g x) -> flat_map f l = flat_map g l.
Proof. intros H. induction l; cbn; congruence. Qed.
Lemma addrs_bunch b : addrs (fp_bunch b) = bunch_refs b.
Proof. unfold fp_bunch, bunch_refs. cbn [addrs map c_addr]. f_equal. apply addrs_cp. Qed.
Lemma addrs_beam b : addrs (fp_beam b) = beam_refs b.
Proof.
  unfold fp_beam, beam_refs. cbn [addrs map c_addr]. f_equal. fold (addrs (flat_map fp_bunch (me_bs b))).
  rewrite addrs_flat. apply flat_map_ext'. apply addrs_bunch.
Qed.
Lemma addrs_elem e : addrs (fp_elem e) = elem_refs e.
Proof.
  destruct e as [a|a tr|a]; try reflexivity. unfold fp_elem, elem_refs. cbn [addrs map c_addr]. f_equal.
  fold (addrs (flat_map (fun p => [ct (fst p); ct (snd p)]) tr)). rewrite addrs_flat. reflexivity.
Qed.
Lemma addrs_elems l : addrs (flat_map fp_elem l) = flat_map elem_refs l.
Proof. rewrite addrs_flat. apply flat_map_ext'. apply addrs_elem. Qed.

Lemma flat_map_map1 {A B} (f : A -> B) l : flat_map (fun x => [f x]) l = map f l.
Proof. induction l; cbn; congruence. Qed.
Lemma flat_map_nil {A B} (l : list A) : flat_map (fun _ => @nil B) l = [].
Proof. induction l; cbn; auto. Qed.

(* the addresses used are among the live ones *)
Ltac inad :=
  let a := fresh "a" in let H := fresh "H" in
  intros a H; rewrite ?addrs_app;
  unfold addrs; cbn [map c_addr app];
  rewrite ?map_app; cbn [map c_addr app];
  repeat match goal with |- context [map c_addr ?l] => change (map c_addr l) with (addrs l) end;
  rewrite ?addrs_beam, ?addrs_elems, ?addrs_bunch, ?addrs_cp, ?addrs_ct, ?addrs_cbuf;
  cbn [In] in *; rewrite ?in_app_iff in *; cbn [In] in *; rewrite ?in_app_iff in *; cbn [In] in *;
  tauto.

Section Proofs.
Variable strict : bool.
Notation T1 := (fun _ => True).

Lemma hsame {A} pre (m : mem A) Q post R : hspec pre m Q post -> hspec (pre ++ R) m Q (fun a => post a ++ R).
Proof. intros H. eapply (hframe R); [exact H|reflexivity|auto|reflexivity]. Qed.
Lemma hnew' f k R : hspec R (mnew f k) T1 (fun a => Cell a f k :: R).
Proof. apply (hsame [] _ _ _ R (hnew f k)). Qed.
Lemma hdel' f a f' k pre R : strict = false \/ f = f' -> Permutation pre (Cell a f' k :: R) ->
  hspec pre (mdel strict f a) T1 (fun _ => R).
Proof. intros HS P. eapply hpre; [exact P|]. apply (hsame _ _ _ _ R (hdel strict f a f' k HS)). Qed.
Lemma hscratch' f R : strict = false \/ f = Arr -> hspec R (mscratch strict f) T1 (fun _ => R).
Proof. intros HS. apply (hsame [] _ _ _ R (hscratch strict f HS)). Qed.
Lemma huse' a R : In a (addrs R) -> hspec R (muse a) T1 (fun _ => R).
Proof. intros H. apply in_map_iff in H as (c & <- & HI). apply huse. exact HI. Qed.

Ltac nx := first [eapply hbind; [|intros ? _; cbn beta] | idtac].

(* ----- constructors ----- *)
Lemma write_source_field_ok a tr k R : strict = false ->
  (forall x, In x tr -> In x (addrs R)) ->
  hspec (Cell a One k :: R) (write_source_field strict a tr) T1 (fun _ => Cell a One k :: R).
Proof.
  intros HS HI. unfold write_source_field.
  eapply hbind; [apply huse'; left; reflexivity|intros ? _; cbn beta].
  eapply hbind; [apply hscratch'; auto|intros ? _; cbn beta].
  eapply hbind; [apply hnew'|intros b _; cbn beta].
  eapply hbind; [apply huses; intros x Hx; right; right; apply HI; exact Hx|intros ? _; cbn beta].
  eapply hdel'; [|reflexivity]; auto.
Qed.

Lemma new_source_ok nx ny R : strict = false ->
  hspec R (new_source strict nx ny) (fun e => exists a tr, e = MSource a tr) (fun e => fp_elem e ++ R).
Proof.
  intros HS. unfold new_source.
  eapply hbind; [apply hnew'|intros a _; cbn beta].
  eapply hbind; [apply hscratch'; auto|intros ? _; cbn beta].
  eapply hbind; [apply hnew'|intros fb _; cbn beta].
  eapply hbind.
  { apply (hrep _ _ _ (fun t => [ct t])).
    eapply hbind; [apply hnew'|intros t _; cbn beta].
    eapply hbind; [apply huse'; cbn; auto|intros ? _; cbn beta].
    eapply hbind; [apply huse'; cbn; auto|intros ? _; cbn beta].
    apply hret; auto. }
  intros tr _; cbn beta. rewrite flat_map_map1.
  eapply hbind.
  { apply (hdel' One fb Arr KBuffer _ (map ct tr ++ Cell a One KElement :: R)); [auto|perm]. }
  intros ? _; cbn beta.
  eapply hbind.
  { eapply hpre; [|apply (hmap _ tr (Cell a One KElement :: R) (fun t => [ct t]) (fun _ _ => True)
      (fun p : nat * nat => [ct (fst p); ct (snd p)]))].
    - rewrite flat_map_map1. reflexivity.
    - intros t _. cbn [app].
      eapply hbind; [apply huse'; left; reflexivity|intros ? _; cbn beta].
      eapply hbind; [apply hnew'|intros d _; cbn beta].
      apply hret; auto. cbn [fst snd app]. fold (ct d). perm. }
  intros dtr _; cbn beta.
  set (D := flat_map (fun p => [ct (fst p); ct (snd p)]) dtr).
  assert (HD : forall x, In x (map fst dtr) \/ In x (map snd dtr) -> In x (addrs D)).
  { intros x Hx. unfold D. rewrite addrs_flat. apply in_flat_map.
    destruct Hx as [Hx|Hx]; apply in_map_iff in Hx as (p & <- & Hp); exists p; (split; [exact Hp|cbn; auto]). }
  assert (HW : forall l, (forall x, In x l -> In x (addrs D)) ->
    hspec (D ++ Cell a One KElement :: R) (write_source_field strict a l) T1 (fun _ => D ++ Cell a One KElement :: R)).
  { intros l Hl. eapply (hframe []); [apply (write_source_field_ok a l KElement (D ++ R) HS)| | |].
    - intros x Hx. rewrite addrs_app, in_app_iff. left. auto.
    - perm.
    - auto.
    - intros; perm. }
  eapply hbind; [apply HW; auto|intros ? _; cbn beta].
  eapply hbind; [apply HW; auto|intros ? _; cbn beta].
  apply hret; [eauto|]. cbn [fp_elem]. fold D. perm.
Qed.

Lemma new_elem_ok s R : strict = false \/ elem_mismatch s = false ->
  hspec R (new_elem strict s) (fun e => forall a, e <> MFel a) (fun e => fp_elem e ++ R).
Proof.
  intros HS. destruct s as [|nx ny]; cbn [new_elem].
  - eapply hbind; [apply hnew'|intros a _; cbn beta]. apply hret; [congruence|reflexivity].
  - eapply hpost; [apply new_source_ok; destruct HS as [|HS]; [auto|discriminate HS]| |reflexivity].
    intros e (a & tr & ->) x. discriminate.
Qed.

Lemma new_logger_ok k refs req R : (forall x, In x refs -> In x (addrs R)) ->
  hspec R (new_logger k refs req) (fun l => ml_refs l = refs /\ ml_data l = []) (fun l => fp_logger l ++ R).
Proof.
  intros HI. unfold new_logger.
  eapply hbind; [apply hnew'|intros a _; cbn beta].
  eapply hbind; [apply huses; intros x Hx; right; apply HI; exact Hx|intros ? _; cbn beta].
  apply hret; [auto|reflexivity].
Qed.
Lemma opt_logger_ok k refs o R : (forall x, In x refs -> In x (addrs R)) ->
  hspec R (opt_logger k refs o) (Forall (fun l => ml_refs l = refs)) (fun l => flat_map fp_logger l ++ R).
Proof.
  intros HI. destruct o as [req|]; cbn [opt_logger].
  - eapply hbind; [apply new_logger_ok; exact HI|intros l [E _]; cbn beta].
    apply hret; [auto|]. cbn [flat_map]. perm.
  - apply hret; [constructor|reflexivity].
Qed.

Definition bunch_ok (s : bunch_shape) (p : m_bunch * list m_logger) : Prop :=
  length (mb_ps (fst p)) = shape_nop s /\ Forall (fun l => ml_refs l = bunch_refs (fst p)) (snd p).
Definition fp_bl (p : m_bunch * list m_logger) : list cell := fp_bunch (fst p) ++ flat_map fp_logger (snd p).

Lemma new_bunch_ok s R :
  hspec R (new_bunch strict s) (bunch_ok s) (fun p => fp_bl p ++ R).
Proof.
  destruct s as [log|n log traj|n log]; cbn [new_bunch].
  - eapply hbind; [apply hnew'|intros p _; cbn beta].
    eapply hbind; [apply huse'; left; reflexivity|intros ? _; cbn beta].
    eapply hbind; [apply hnew'|intros b _; cbn beta].
    eapply hbind; [apply opt_logger_ok; inad|intros lg Hlg; cbn beta].
    apply hret; [split; [reflexivity|exact Hlg]|].
    unfold fp_bl, fp_bunch. cbn [fst snd mb_a mb_ps map]. fold (cp p). perm.
  - eapply hbind; [apply hnew'|intros d _; cbn beta].
    eapply hbind; [apply hnew'|intros da _; cbn beta].
    eapply hbind; [apply hnew'|intros b _; cbn beta].
    eapply hbind.
    { apply (hrep _ _ _ (fun t => [cp t])).
      eapply hbind; [apply hnew'|intros t _; cbn beta].
      eapply hbind; [apply huses; inad|intros ? _; cbn beta].
      apply hret; auto. }
    intros ps Hps; cbn beta. rewrite flat_map_map1.
    eapply hbind; [apply opt_logger_ok; inad|intros lg Hlg; cbn beta].
    eapply hbind; [apply opt_logger_ok; inad|intros tr Htr; cbn beta].
    eapply hbind.
    { apply (hdel' Arr da Arr KBuffer _ (flat_map fp_logger tr ++ flat_map fp_logger lg ++ map cp ps ++
        Cell b One KBunch :: Cell d One KDist :: R)); [auto|perm]. }
    intros ? _; cbn beta.
    eapply hbind.
    { apply (hdel' One d One KDist _ (flat_map fp_logger tr ++ flat_map fp_logger lg ++ map cp ps ++
        Cell b One KBunch :: R)); [auto|perm]. }
    intros ? _; cbn beta.
    apply hret.
    + split; [exact Hps|]. cbn [fst snd]. apply Forall_app. split; assumption.
    + unfold fp_bl, fp_bunch. cbn [fst snd mb_a mb_ps]. rewrite flat_map_app. perm.
  - eapply hbind; [apply hnew'|intros b _; cbn beta].
    eapply hbind.
    { apply (hrep _ _ _ (fun t => [cp t])). apply hnew'. }
    intros ps Hps; cbn beta. rewrite flat_map_map1.
    eapply hbind; [apply opt_logger_ok; inad|intros lg Hlg; cbn beta].
    apply hret.
    + split; [exact Hps|exact Hlg].
    + unfold fp_bl, fp_bunch. cbn [fst snd mb_a mb_ps]. perm.
Qed.

Definition kind_of (s : obs_shape) : obs_kind :=
  match s with
  | SScreen ok _ _ _ => OScreen ok | SSnap ok _ => OSnap ok
  | SMesh ok _ _ _ _ => OMesh ok | SPoint ok _ => OPoint ok
  end.
Definition lat_of (s : obs_shape) : bool :=
  match s with SScreen _ l _ _ | SSnap _ l | SMesh _ l _ _ _ | SPoint _ l => l end.
Definition obs_is (s : obs_shape) (o : m_obs) : Prop :=
  mo_kind o = kind_of s /\ mo_lattice o = lat_of s /\ mo_buf o = None /\ mo_stored o = 0.

Definition mesh_free (s : obs_shape) : Prop := match s with SMesh _ _ _ _ _ => False | _ => True end.

Lemma new_obs_ok s R : strict = false \/ mesh_free s ->
  hspec R (new_obs strict s) (obs_is s) (fun o => fp_obs o ++ R).
Proof.
  intros HS. destruct s as [ok lat nx ny|ok lat|ok lat np time field|ok lat]; cbn [new_obs].
  - eapply hbind; [apply hnew'|intros a _; cbn beta].
    eapply hbind; [apply (hrep _ _ _ (fun t => [ct t])); apply hnew'|intros tr Htr; cbn beta].
    rewrite flat_map_map1.
    apply hret; [repeat split|]. unfold fp_obs, fp_buf. cbn [mo_a mo_traces mo_buf]. perm.
  - eapply hbind; [apply hnew'|intros a _; cbn beta].
    apply hret; [repeat split|]. reflexivity.
  - assert (HF : strict = false) by (destruct HS as [|HS]; [auto|destruct HS]). clear HS.
    eapply hbind; [apply hnew'|intros a _; cbn beta].
    eapply hbind; [apply hscratch'; auto|intros ? _; cbn beta].
    eapply hbind; [apply hscratch'; auto|intros ? _; cbn beta].
    eapply hbind; [apply hscratch'; auto|intros ? _; cbn beta].
    assert (HT : hspec (Cell a One KObserver :: R)
      (if time
       then t0 <- mnew Arr KBuffer;;
            tr <- mrep np (t <- mnew One KTrace;; _ <- muse t0;; mret t);;
            _ <- mdel strict One t0;; mret tr
       else mrep np (mnew One KTrace)) T1 (fun tr => map ct tr ++ Cell a One KObserver :: R)).
    { destruct time.
      - eapply hbind; [apply hnew'|intros t0 _; cbn beta].
        eapply hbind.
        { apply (hrep _ _ _ (fun t => [ct t])).
          eapply hbind; [apply hnew'|intros t _; cbn beta].
          eapply hbind; [apply huse'; cbn; auto|intros ? _; cbn beta].
          apply hret; auto. }
        intros tr _; cbn beta. rewrite flat_map_map1.
        eapply hbind; [apply (hdel' One t0 Arr KBuffer _ (map ct tr ++ Cell a One KObserver :: R)); [auto|perm]|].
        intros ? _; cbn beta. apply hret; auto.
      - eapply hpost; [apply (hrep _ _ _ (fun t => [ct t])); apply hnew'|auto|].
        intros tr _. cbn beta. rewrite flat_map_map1. reflexivity. }
    eapply hbind; [exact HT|intros tr _; cbn beta]. clear HT.
    eapply hbind.
    { apply hwhen. intros _.
      eapply hbind; [apply hnew'|intros f _; cbn beta].
      eapply hbind; [apply huses; inad|intros ? _; cbn beta].
      eapply hdel'; [|reflexivity]; auto. }
    intros ? _; cbn beta.
    apply hret; [repeat split|]. unfold fp_obs, fp_buf. cbn [mo_a mo_traces mo_buf]. perm.
  - eapply hbind; [apply hnew'|intros a _; cbn beta].
    eapply hbind; [apply hnew'|intros t _; cbn beta].
    apply hret; [repeat split|]. unfold fp_obs, fp_buf. cbn [mo_a mo_traces mo_buf map]. unfold ct. perm.
Qed.

(* ----- destructors ----- *)
Lemma del_list f f' k l : strict = false \/ f = f' ->
  hspec (map (fun p => Cell p f' k) l) (miter (mdel strict f) l) T1 (fun _ => []).
Proof.
  intros HS. eapply (hframe []); [apply (hiter _ l (fun p => [Cell p f' k]) (fun _ => []))| | |].
  - intros x _. apply hdel. exact HS.
  - rewrite flat_map_map1. perm.
  - auto.
  - intros. rewrite flat_map_nil. reflexivity.
Qed.

Lemma del_bunch_ok b : hspec (fp_bunch b) (del_bunch strict b) T1 (fun _ => []).
Proof.
  unfold del_bunch, fp_bunch.
  eapply hbind; [apply huse'; left; reflexivity|intros ? _; cbn beta].
  eapply (hstep [Cell (mb_a b) One KBunch]); [apply (del_list One One KParticle); auto|unfold cp; perm|].
  intros ? _. cbn [app]. rewrite ?flat_map_nil. cbn [app]. eapply hdel'; [|reflexivity]; auto.
Qed.
Lemma del_beam_ok b : hspec (fp_beam b) (del_beam strict b) T1 (fun _ => []).
Proof.
  unfold del_beam, fp_beam.
  eapply hbind; [apply huse'; left; reflexivity|intros ? _; cbn beta].
  eapply (hstep [Cell (me_a b) One KBeam]).
  { apply (hiter _ _ fp_bunch (fun _ => [])). intros x _. apply del_bunch_ok. }
  { perm. }
  intros ? _. cbn [app]. rewrite ?flat_map_nil. cbn [app]. eapply hdel'; [|reflexivity]; auto.
Qed.
Lemma del_logger_ok l : hspec (fp_logger l) (del_logger strict l) T1 (fun _ => []).
Proof.
  unfold del_logger, fp_logger.
  eapply hbind; [apply huse'; left; reflexivity|intros ? _; cbn beta].
  eapply (hstep [Cell (ml_a l) One KLogger]); [apply (del_list Arr Arr KBuffer); auto|unfold cbuf; perm|].
  intros ? _. cbn [app]. rewrite ?flat_map_nil. cbn [app]. eapply hdel'; [|reflexivity]; auto.
Qed.
Lemma del_elem_ok e : hspec (fp_elem e) (del_elem strict e) T1 (fun _ => []).
Proof.
  destruct e as [a|a tr|a]; cbn [del_elem fp_elem].
  - eapply hbind; [apply huse'; left; reflexivity|intros ? _; cbn beta]. apply hdel. auto.
  - eapply hbind; [apply huse'; left; reflexivity|intros ? _; cbn beta].
    eapply (hstep [Cell a One KElement]).
    { apply (hiter _ tr (fun p => [ct (fst p); ct (snd p)]) (fun _ => [])). intros x _.
      unfold ct. eapply hbind; [eapply hdel'; [|reflexivity]; auto|intros ? _; cbn beta]. apply hdel. auto. }
    { perm. }
    intros ? _. cbn [app]. rewrite ?flat_map_nil. cbn [app]. eapply hdel'; [|reflexivity]; auto.
  - eapply hbind; [apply huse'; left; reflexivity|intros ? _; cbn beta]. apply hdel. auto.
Qed.
Lemma flat_map_rev {A} (f : A -> list cell) l : Permutation (flat_map f l) (flat_map f (rev l)).
Proof. apply Permutation_flat_map. apply Permutation_rev. Qed.
Lemma del_lattice_ok a l :
  hspec (Cell a One KLattice :: flat_map fp_elem l) (del_lattice strict a l) T1 (fun _ => []).
Proof.
  unfold del_lattice.
  eapply hbind; [apply huse'; left; reflexivity|intros ? _; cbn beta].
  eapply (hstep [Cell a One KLattice]).
  { apply (hiter _ (rev l) fp_elem (fun _ => [])). intros x _. apply del_elem_ok. }
  { pose proof (flat_map_rev fp_elem l). perm. }
  intros ? _. cbn [app]. rewrite ?flat_map_nil. cbn [app]. eapply hdel'; [|reflexivity]; auto.
Qed.
Lemma del_obs_ok o : strict = false \/ mo_stored o = 0 \/ mo_buf o = None ->
  hspec (fp_obs o) (del_obs strict o) T1 (fun _ => left_obs o).
Proof.
  intros HS. unfold del_obs, fp_obs, left_obs.
  eapply hbind; [apply huse'; left; reflexivity|intros ? _; cbn beta].
  eapply (hstep (Cell (mo_a o) One KObserver :: fp_buf o)); [apply (del_list One One KTrace); auto|unfold ct; perm|].
  intros ? _. cbn [app].
  eapply (hstep [Cell (mo_a o) One KObserver] (fp_buf o) _ T1 (fun _ => if 0 <? mo_stored o then [] else fp_buf o)).
  { unfold fp_buf. destruct (mo_buf o) as [b|].
    - unfold mwhen. destruct (0 <? mo_stored o) eqn:E.
      + apply hdel. destruct HS as [HS|[HS|HS]]; [auto| |discriminate HS].
        rewrite HS in E. discriminate E.
      + apply hret; auto.
    - apply hret; auto. destruct (0 <? mo_stored o); auto. }
  { perm. }
  intros ? _. cbn beta. apply (hdel' One (mo_a o) One KObserver _ (if 0 <? mo_stored o then [] else fp_buf o)); [auto|perm].
Qed.

(* ----- the run ----- *)
Definition refs_in (R : list cell) (l : m_logger) : Prop := forall x, In x (ml_refs l) -> In x (addrs R).

Lemma log_update_ok l R : refs_in R l ->
  hspec (fp_logger l ++ R) (log_update l) (refs_in R) (fun l' => fp_logger l' ++ R).
Proof.
  intros HI. unfold log_update.
  eapply hbind; [apply huse'; left; reflexivity|intros ? _; cbn beta].
  assert (HU : forall X, hspec (X ++ fp_logger l ++ R) (muses (ml_refs l)) T1 (fun _ => X ++ fp_logger l ++ R)).
  { intros X. apply huses. intros x Hx. rewrite !addrs_app, !in_app_iff. auto. }
  destruct (ml_kind l).
  - eapply hbind; [apply (HU [])|intros ? _; cbn beta]. apply hret; auto.
  - eapply hbind; [apply hnew'|intros b _; cbn beta].
    eapply hbind; [apply (HU [Cell b Arr KBuffer])|intros ? _; cbn beta; cbn [app]]. apply hret; [exact HI|].
    unfold fp_logger. cbn [ml_a ml_data]. rewrite map_app. cbn [map]. fold (cbuf b). perm.
  - eapply hbind; [apply hnew'|intros b _; cbn beta].
    eapply hbind; [apply (HU [Cell b Arr KBuffer])|intros ? _; cbn beta; cbn [app]]. apply hret; [exact HI|].
    unfold fp_logger. cbn [ml_a ml_data]. rewrite map_app. cbn [map]. fold (cbuf b). perm.
Qed.

Lemma Forall2_right {A B} (P : B -> Prop) (l : list A) l' : Forall2 (fun _ y => P y) l l' -> Forall P l'.
Proof. induction 1; constructor; auto. Qed.

Lemma log_updates_ok (f : m_logger -> mem m_logger) logs R :
  (forall l, refs_in R l -> hspec (fp_logger l ++ R) (f l) (refs_in R) (fun l' => fp_logger l' ++ R)) ->
  Forall (refs_in R) logs ->
  hspec (flat_map fp_logger logs ++ R) (mmap f logs) (Forall (refs_in R))
    (fun l' => flat_map fp_logger l' ++ R).
Proof.
  intros HF H. eapply hpost.
  - apply (hmap f logs R fp_logger (fun _ l' => refs_in R l') fp_logger).
    intros l Hl. apply HF. rewrite Forall_forall in H. auto.
  - intros l'. apply Forall2_right.
  - reflexivity.
Qed.

Lemma log_write_ok l R : hspec (fp_logger l ++ R) (log_write strict l) T1 (fun _ => fp_logger l ++ R).
Proof.
  unfold log_write.
  eapply hbind; [apply huse'; left; reflexivity|intros ? _; cbn beta].
  assert (HW : hspec (fp_logger l ++ R) (b <- mnew Arr KBuffer;; _ <- muses (ml_data l);; mdel strict Arr b)
    T1 (fun _ => fp_logger l ++ R)).
  { eapply hbind; [apply hnew'|intros b _; cbn beta].
    eapply hbind; [apply huses; unfold fp_logger; inad|intros ? _; cbn beta].
    eapply hdel'; [|reflexivity]; auto. }
  destruct (ml_kind l); [apply hret; auto|exact HW|exact HW].
Qed.

Lemma watch_at_ok mb step w R : (forall x, In x (beam_refs mb) -> In x (addrs R)) ->
  hspec R (watch_at strict mb step w) T1 (fun _ => R).
Proof.
  intros HI. unfold watch_at. apply hwhen. intros _.
  eapply hbind; [apply hwhen; intros _; apply hscratch'; auto|intros ? _; cbn beta].
  apply huses. exact HI.
Qed.

Lemma distribute_ok rank chunk ps R : (forall x, In x ps -> In x (addrs R)) -> forall node c,
  hspec R (distribute rank chunk node c ps) T1 (fun qs => map cp qs ++ R).
Proof.
  induction ps as [|p ps IH]; intros HI node c; cbn [distribute].
  - apply hret; auto.
  - eapply hbind; [apply huse'; apply HI; left; reflexivity|intros ? _; cbn beta].
    eapply (hbind _ _ T1 (fun q => map cp q ++ R)).
    { destruct (rank =? node).
      - eapply hbind; [apply hnew'|intros q _; cbn beta]. apply hret; auto.
      - apply hret; auto. }
    intros q _; cbn beta.
    assert (IH' : forall node c, hspec R (distribute rank chunk node c ps) T1 (fun qs => map cp qs ++ R)).
    { apply IH. intros; apply HI; right; auto. }
    eapply (hstep (map cp q) R _ T1 (fun qs => map cp qs ++ R)).
    { destruct (S c =? chunk); apply IH'. }
    { perm. }
    intros qs _. apply hret; [auto|]. rewrite map_app. perm.
Qed.

Lemma one_step_ok rank lat els mb tb mbuf tbuf fels ws step logs R :
  (forall x, In x (beam_refs mb) -> In x (addrs R)) ->
  (forall x, In x (beam_refs tb) -> In x (addrs R)) ->
  (forall x, In x (flat_map elem_refs els) -> In x (addrs R)) ->
  (forall x, In x fels -> In x (addrs R)) ->
  In lat (addrs R) -> In mbuf (addrs R) -> In tbuf (addrs R) ->
  Forall (refs_in R) logs ->
  hspec (flat_map fp_logger logs ++ R) (one_step strict rank lat els mb tb mbuf tbuf fels ws step logs)
    (Forall (refs_in R)) (fun l' => flat_map fp_logger l' ++ R).
Proof.
  intros Hm Ht He Hf Hl Hb1 Hb2 HL. unfold one_step.
  assert (HU : forall X l, (forall x, In x l -> In x (addrs R)) -> hspec (X ++ R) (muses l) T1 (fun _ => X ++ R)).
  { intros X l H. apply huses. intros x Hx. rewrite addrs_app, in_app_iff. auto. }
  eapply hbind; [apply HU; auto|intros ? _; cbn beta].
  eapply hbind; [apply huse'; rewrite addrs_app, in_app_iff; auto|intros ? _; cbn beta].
  eapply hbind; [apply HU; auto|intros ? _; cbn beta].
  eapply hbind; [apply HU; intros x [<-|[<-|[]]]; auto|intros ? _; cbn beta].
  eapply hbind; [apply HU; auto|intros ? _; cbn beta].
  eapply (hbind _ _ (Forall (refs_in R)) (fun l' => flat_map fp_logger l' ++ R)).
  { destruct (rank =? 0).
    - apply log_updates_ok; [|exact HL]. intros l Hrl.
      destruct (ml_req l (S step)); [apply log_update_ok; exact Hrl|apply hret; auto].
    - apply hret; auto. }
  intros logs' HL'; cbn beta.
  eapply hbind.
  { apply hwhen. intros _. apply hiter_same. intros w _. apply watch_at_ok.
    intros x Hx. rewrite addrs_app, in_app_iff. auto. }
  intros ? _; cbn beta.
  eapply hbind.
  { apply hiter_same. intros f Hf'.
    eapply hbind; [apply huse'; rewrite addrs_app, in_app_iff; auto|intros ? _; cbn beta].
    apply HU. auto. }
  intros ? _; cbn beta. apply hret; auto.
Qed.

Lemma steps_ok rank lat els mb tb mbuf tbuf fels ws R :
  (forall x, In x (beam_refs mb) -> In x (addrs R)) ->
  (forall x, In x (beam_refs tb) -> In x (addrs R)) ->
  (forall x, In x (flat_map elem_refs els) -> In x (addrs R)) ->
  (forall x, In x fels -> In x (addrs R)) ->
  In lat (addrs R) -> In mbuf (addrs R) -> In tbuf (addrs R) ->
  forall n step logs, Forall (refs_in R) logs ->
  hspec (flat_map fp_logger logs ++ R) (steps strict rank lat els mb tb mbuf tbuf fels ws n step logs)
    (Forall (refs_in R)) (fun l' => flat_map fp_logger l' ++ R).
Proof.
  intros Hm Ht He Hf Hl Hb1 Hb2. induction n as [|n IH]; intros step logs HL; cbn [steps].
  - apply hret; auto.
  - eapply hbind; [apply one_step_ok; auto|]. intros logs' HL'; cbn beta. apply IH. exact HL'.
Qed.

Definition not_fel (e : m_elem) : Prop := forall a, e <> MFel a.
Lemma remove_fels_ok els fels R : Forall not_fel els ->
  (forall x, In x (flat_map elem_refs els) -> In x (addrs R)) -> (forall x, In x fels -> In x (addrs R)) ->
  hspec R (remove_fels (els ++ map MFel fels)) (fun l => l = els) (fun _ => R).
Proof.
  intros HN He Hf. induction els as [|e els IH]; cbn [app].
  - clear HN He. induction fels as [|f fels IH]; cbn [map remove_fels].
    + apply hret; auto.
    + eapply hbind; [apply huse'; apply Hf; left; reflexivity|intros ? _; cbn beta].
      apply IH. intros; apply Hf; right; auto.
  - assert (HE : hspec R (r' <- remove_fels (els ++ map MFel fels);; mret (e :: r')) (fun l => l = e :: els) (fun _ => R)).
    { eapply hbind; [apply IH|intros r' ->; cbn beta; apply hret; auto].
      - inversion HN; auto.
      - intros x Hx. apply He. cbn [flat_map]. rewrite in_app_iff. auto. }
    inversion HN as [|? ? HN1 HN2 E]; subst.
    destruct e as [a|a tr|a]; cbn [remove_fels].
    + eapply hbind; [apply huse'; apply He; left; reflexivity|intros ? _; cbn beta]. exact HE.
    + eapply hbind; [apply huse'; apply He; left; reflexivity|intros ? _; cbn beta]. exact HE.
    + exfalso. apply (HN1 a). reflexivity.
Qed.

(* an observer after the loop over the observers *)
Definition obs_done (rank nop : nat) (s : obs_shape) (o : m_obs) : Prop :=
  if (rank =? 0) && beam_snap s then (exists b, mo_buf o = Some b) /\ mo_stored o = nop
  else mo_buf o = None /\ mo_stored o = 0.

Lemma store_positions_ok mb s o R : obs_is s o ->
  (forall x, In x (beam_refs mb) -> In x (addrs R)) ->
  hspec (fp_obs o ++ R) (store_positions mb o)
    (fun o' => mo_kind o' = kind_of s /\ obs_done 0 (beam_nop mb) s o') (fun o' => fp_obs o' ++ R).
Proof.
  intros (Hk & Hl & Hb & Hs) HI. unfold store_positions, obs_done. rewrite Hk.
  destruct s as [ok lat nx ny|ok lat|ok lat np time field|ok lat]; cbn [kind_of beam_snap]; cbn [lat_of] in Hl;
    try (apply hret; cbn; auto; fail).
  rewrite Hl. destruct lat.
  - apply hret; cbn; auto.
  - eapply hbind; [apply hnew'|intros b _; cbn beta].
    eapply hbind; [apply huses; intros x Hx; right; fold (addrs (fp_obs o ++ R)); rewrite addrs_app, in_app_iff; auto|].
    intros ? _; cbn beta. apply hret.
    + cbn. eauto.
    + unfold fp_obs, fp_buf. cbn [mo_a mo_traces mo_buf]. rewrite Hb. perm.
Qed.

Lemma obs_output_ok s o R nop : strict = false \/ obs_mismatch 0 nop s = false ->
  mo_kind o = kind_of s ->
  hspec (fp_obs o ++ R) (obs_output strict o) T1 (fun _ => fp_obs o ++ R).
Proof.
  intros HS Hk. unfold obs_output.
  eapply hbind; [apply huse'; left; reflexivity|intros ? _; cbn beta].
  rewrite Hk.
  assert (HU : forall X, hspec (X ++ fp_obs o ++ R) (muses (mo_traces o)) T1 (fun _ => X ++ fp_obs o ++ R)).
  { intros X. apply huses. intros x Hx. unfold fp_obs. rewrite !addrs_app, !in_app_iff. right. left. right.
    fold (addrs (map ct (mo_traces o) ++ fp_buf o)). rewrite addrs_app, addrs_ct, in_app_iff. auto. }
  destruct s as [ok lat nx ny|ok lat|ok lat np time field|ok lat]; cbn [kind_of].
  - apply hwhen. intros ->.
    assert (HF : strict = false) by (destruct HS as [|HS]; [auto|discriminate HS]).
    eapply hbind; [apply hscratch'; auto|intros ? _; cbn beta].
    eapply hbind; [apply hscratch'; auto|intros ? _; cbn beta].
    eapply hbind; [apply hnew'|intros b _; cbn beta].
    eapply hbind; [apply (HU [Cell b Arr KBuffer])|intros ? _; cbn beta; cbn [app]].
    eapply hdel'; [|reflexivity]; auto.
  - apply hwhen. intros ->.
    eapply hbind; [apply hscratch'; auto|intros ? _; cbn beta].
    eapply hbind; [apply hscratch'; auto|intros ? _; cbn beta].
    destruct (mo_buf o) as [b|] eqn:Eb; [|apply hret; auto].
    apply hwhen. intros _. apply huse'. unfold fp_obs, fp_buf. rewrite Eb, addrs_app, in_app_iff. left. right.
    fold (addrs (map ct (mo_traces o) ++ [Cell b Arr KSnap])). rewrite addrs_app, in_app_iff. right. left. reflexivity.
  - apply hwhen. intros ->.
    assert (HF : strict = false) by (destruct HS as [|HS]; [auto|discriminate HS]).
    eapply hbind; [apply hscratch'; auto|intros ? _; cbn beta].
    eapply hbind; [apply hscratch'; auto|intros ? _; cbn beta].
    eapply hbind; [apply hscratch'; auto|intros ? _; cbn beta].
    eapply hbind; [apply hnew'|intros t _; cbn beta].
    eapply hbind; [apply (HU [Cell t Arr KBuffer])|intros ? _; cbn beta; cbn [app]].
    eapply hbind; [eapply hdel'; [|reflexivity]; auto|intros ? _; cbn beta].
    eapply hbind; [apply hnew'|intros b _; cbn beta].
    eapply hbind; [apply (HU [Cell b Arr KBuffer])|intros ? _; cbn beta; cbn [app]].
    eapply hdel'; [|reflexivity]; auto.
  - apply hwhen. intros _. apply (HU []).
Qed.

Lemma observe_ok rank lat els mb tb s o R :
  (forall x, In x (beam_refs mb) -> In x (addrs R)) ->
  (forall x, In x (beam_refs tb) -> In x (addrs R)) ->
  (forall x, In x (flat_map elem_refs els) -> In x (addrs R)) ->
  In lat (addrs R) ->
  strict = false \/ obs_mismatch rank (beam_nop mb) s = false ->
  obs_is s o ->
  hspec (fp_obs o ++ R) (observe strict rank lat els mb tb o) (obs_done rank (beam_nop mb) s)
    (fun o' => fp_obs o' ++ R).
Proof.
  intros Hm Ht He Hl HS Ho. unfold observe.
  assert (HU : forall X l, (forall x, In x l -> In x (addrs R)) -> hspec (X ++ R) (muses l) T1 (fun _ => X ++ R)).
  { intros X l H. apply huses. intros x Hx. rewrite addrs_app, in_app_iff. auto. }
  eapply hbind; [apply huse'; left; reflexivity|intros ? _; cbn beta].
  eapply hbind.
  { apply huses. intros x Hx. unfold fp_obs. rewrite addrs_app, in_app_iff. left. right.
    fold (addrs (map ct (mo_traces o) ++ fp_buf o)). rewrite addrs_app, addrs_ct, in_app_iff. auto. }
  intros ? _; cbn beta.
  eapply (hbind _ _ T1 (fun _ => fp_obs o ++ R)).
  { destruct (mo_lattice o); [|apply HU; auto].
    eapply hbind; [apply huse'; rewrite addrs_app, in_app_iff; auto|intros ? _; cbn beta]. apply HU. auto. }
  intros ? _; cbn beta.
  eapply hbind; [apply hnew'|intros nb _; cbn beta].
  eapply hbind; [apply hnew'|intros rb _; cbn beta].
  eapply hbind; [apply huses; inad|intros ? _; cbn beta].
  eapply (hbind _ _ (obs_done rank (beam_nop mb) s)
    (fun o' => Cell rb Arr KBuffer :: Cell nb Arr KBuffer :: fp_obs o' ++ R)).
  { destruct (rank =? 0) eqn:Er.
    - apply Nat.eqb_eq in Er. subst rank.
      eapply hbind; [apply huse'; left; reflexivity|intros ? _; cbn beta].
      set (R2 := Cell rb Arr KBuffer :: Cell nb Arr KBuffer :: R).
      eapply hpre; [|eapply hbind; [apply (store_positions_ok mb s o R2 Ho)|]].
      + unfold R2. perm.
      + intros x Hx. right. right. fold (addrs R). auto.
      + intros o' [Hk' Ho']; cbn beta.
        eapply hbind; [apply (obs_output_ok s o' R2 (beam_nop mb) HS Hk')|intros ? _; cbn beta].
        apply hret; [exact Ho'|]. unfold R2. perm.
    - apply hret; [|reflexivity]. unfold obs_done. rewrite Er. cbn [andb].
      destruct Ho as (_ & _ & Hb & Hs). auto. }
  intros o' Ho'; cbn beta.
  eapply hbind; [eapply hdel'; [|reflexivity]; auto|intros ? _; cbn beta].
  eapply hbind; [eapply hdel'; [|reflexivity]; auto|intros ? _; cbn beta].
  apply hret; auto.
Qed.
End Proofs.
