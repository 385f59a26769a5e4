(* Where the forms of new and delete do not agree, the run of teufel_hybrid is undefined (strict mode
   of MemModel.v). *)
From Coq Require Import List Bool Arith Lia.
From Verif Require Import Base MemModel MemModel2 MemSpec.
Import ListNotations.
Local Open Scope mem_scope.

(* m ends well with Q, or is undefined *)
Definition wp {A} (m : mem A) (Q : A -> heap -> Prop) (h : heap) : Prop :=
  match m h with Ok (a, h') => Q a h' | UB => True | _ => False end.
Definition stable (I : heap -> Prop) : Prop :=
  (forall h f k, I h -> I (Heap (S (h_next h)) (Cell (h_next h) f k :: h_live h))) /\
  (forall h a, I h -> I (Heap (h_next h) (filter (fun c => negb (c_addr c =? a)) (h_live h)))).
Definition keeps (I : heap -> Prop) {A} (m : mem A) (Q : A -> Prop) : Prop :=
  forall h, I h -> wp m (fun a h' => I h' /\ Q a) h.

Definition fresh (h : heap) : Prop := forall c, In c (h_live h) -> c_addr c < h_next h.
Definition array (b : nat) (h : heap) : Prop :=
  fresh h /\ b < h_next h /\ forall c, In c (h_live h) -> c_addr c = b -> c_form c = Arr.
Lemma fresh_stable : stable fresh.
Proof.
  split.
  - intros h f k H c [<-|Hc]; cbn; [lia|]. specialize (H c Hc). lia.
  - intros h a H c Hc. apply filter_In in Hc. cbn. exact (H c (proj1 Hc)).
Qed.
Lemma array_stable b : stable (array b).
Proof.
  split.
  - intros h f k (H & L & F). split; [exact (proj1 fresh_stable h f k H)|]. split; [cbn; lia|]. intros c [<-|Hc] E; [cbn in E; lia|exact (F c Hc E)].
  - intros h a (H & L & F). split; [exact (proj2 fresh_stable h a H)|]. split; [exact L|]. intros c Hc. apply filter_In in Hc. exact (F c (proj1 Hc)).
Qed.

Lemma wp_bind {A B} (m : mem A) (f : A -> mem B) Q h : wp m (fun a h' => wp (f a) Q h') h -> wp (mbind m f) Q h.
Proof. unfold wp, mbind. destruct (m h) as [[a h']| | |]; cbn; auto. Qed.
Lemma wp_imp {A} (m : mem A) (Q Q' : A -> heap -> Prop) h : wp m Q h -> (forall a h', Q a h' -> Q' a h') -> wp m Q' h.
Proof. unfold wp. destruct (m h) as [[a h']| | |]; auto. Qed.

Section Keeps.
Variable I : heap -> Prop.
Hypothesis SI : stable I.
Local Notation K := (keeps I).

Lemma k_imp {A} (m : mem A) (Q Q' : A -> Prop) : K m Q -> (forall a, Q a -> Q' a) -> K m Q'.
Proof. intros H HQ h Hh. eapply wp_imp; [exact (H h Hh)|]. intros a h' [X Y]. auto. Qed.
Lemma k_ret {A} (a : A) (Q : A -> Prop) : Q a -> K (mret a) Q.
Proof. intros H h Hh. unfold wp. cbn. auto. Qed.
Lemma k_bind {A B} (m : mem A) (f : A -> mem B) Q Q' : K m Q -> (forall a, Q a -> K (f a) Q') -> K (mbind m f) Q'.
Proof. intros H1 H2 h Hh. apply wp_bind. eapply wp_imp; [exact (H1 h Hh)|]. intros a h' [X Y]. exact (H2 a Y h' X). Qed.
Lemma k_fail {A B} (m : mem A) (f : A -> mem B) Q : K m (fun _ => False) -> K (mbind m f) Q.
Proof. intros H. eapply k_bind; [exact H|]. intros a []. Qed.
Lemma k_new f k : K (mnew f k) (fun _ => True).
Proof. intros h Hh. unfold wp, mnew. split; [exact (proj1 SI h f k Hh)|exact Logic.I]. Qed.
Lemma k_use a : K (muse a) (fun _ => True).
Proof. intros h Hh. unfold wp, muse. destruct (existsb _ _); [split; [exact Hh|exact Logic.I]|exact Logic.I]. Qed.
Lemma k_del f a : K (mdel true f a) (fun _ => True).
Proof. intros h Hh. unfold wp, mdel. destruct (find _ _); [|exact Logic.I]. destruct (_ && _); [exact Logic.I|]. split; [exact (proj2 SI h a Hh)|exact Logic.I]. Qed.
Lemma k_when b m : K m (fun _ => True) -> K (mwhen b m) (fun _ => True).
Proof. intros H. destruct b; [exact H|]. apply k_ret. exact Logic.I. Qed.
Lemma k_iter {A} (f : A -> mem unit) l : (forall x, In x l -> K (f x) (fun _ => True)) -> K (miter f l) (fun _ => True).
Proof.
  induction l as [|x l IH]; intros H; cbn [miter]; [apply k_ret; exact Logic.I|].
  eapply k_bind; [apply H; left; reflexivity|]. intros _ _. apply IH. intros y Hy. apply H. right. exact Hy.
Qed.
Lemma k_iter_fail {A} (f : A -> mem unit) l x : (forall x, In x l -> K (f x) (fun _ => True)) -> In x l -> K (f x) (fun _ => False) -> K (miter f l) (fun _ => False).
Proof.
  induction l as [|y l IH]; intros H Hx F; [destruct Hx|]. cbn [miter]. destruct Hx as [E|Hx]; [subst y; apply k_fail; exact F|].
  eapply k_bind; [apply H; left; reflexivity|]. intros _ _. apply IH; [|exact Hx|exact F]. intros z Hz. apply H. right. exact Hz.
Qed.
Lemma k_map {A B} (f : A -> mem B) (R : A -> B -> Prop) l : (forall x, In x l -> K (f x) (R x)) -> K (mmap f l) (Forall2 R l).
Proof.
  induction l as [|x l IH]; intros H; cbn [mmap]; [apply k_ret; constructor|].
  eapply k_bind; [apply H; left; reflexivity|]. intros y Hy. eapply k_bind; [apply IH; intros z Hz; apply H; right; exact Hz|]. intros ys Hys. apply k_ret. constructor; assumption.
Qed.
Lemma k_map_any {A B} (f : A -> mem B) l : (forall x, K (f x) (fun _ => True)) -> K (mmap f l) (fun _ => True).
Proof. intros H. eapply k_imp; [apply (k_map f (fun _ _ => True)); intros x _; apply H|]. auto. Qed.
Lemma k_map_fail {A B} (f : A -> mem B) l x : (forall x, In x l -> K (f x) (fun _ => True)) -> In x l -> K (f x) (fun _ => False) -> K (mmap f l) (fun _ => False).
Proof.
  induction l as [|y l IH]; intros H Hx F; [destruct Hx|]. cbn [mmap]. destruct Hx as [E|Hx]; [subst y; apply k_fail; exact F|].
  eapply k_bind; [apply H; left; reflexivity|]. intros y0 _. apply k_fail. apply IH; [|exact Hx|exact F]. intros z Hz. apply H. right. exact Hz.
Qed.
Lemma k_rep {A} n (m : mem A) : K m (fun _ => True) -> K (mrep n m) (fun ys => length ys = n).
Proof.
  intros H. induction n as [|n IH]; cbn [mrep]; [apply k_ret; reflexivity|]. eapply k_bind; [exact H|]. intros y _. eapply k_bind; [exact IH|]. intros ys E. apply k_ret. cbn. congruence.
Qed.
Lemma k_uses l : K (muses l) (fun _ => True).
Proof. apply k_iter. intros x _. apply k_use. Qed.
(* releasing a new array with delete *)
Lemma k_scratch f : K (mscratch true f) (fun _ => True).
Proof. unfold mscratch. eapply k_bind; [apply k_new|]. intros b _. eapply k_bind; [apply k_use|]. intros _ _. apply k_del. Qed.
Lemma k_scratch_fail : K (mscratch true One) (fun _ => False).
Proof.
  intros h Hh. unfold wp, mscratch, mbind, mnew, muse, mdel. cbn [bind fst snd h_live h_next existsb find c_addr]. rewrite Nat.eqb_refl. cbn [orb bind fst snd find c_addr h_live].
  rewrite Nat.eqb_refl. cbn. exact Logic.I.
Qed.
End Keeps.

Ltac k1 :=
  match goal with
  | |- stable _ => assumption
  | |- forall _, _ => intro
  | |- keeps _ (mbind _ _) _ => apply k_bind with (Q := fun _ => True)
  | |- keeps _ (mnew _ _) _ => apply k_new; assumption
  | |- keeps _ (muse _) _ => apply k_use; assumption
  | |- keeps _ (mdel _ _ _) _ => apply k_del; assumption
  | |- keeps _ (muses _) _ => apply k_uses; assumption
  | |- keeps _ (mscratch _ _) _ => apply k_scratch; assumption
  | |- keeps _ (mret _) (fun _ => True) => apply k_ret; exact Logic.I
  | |- keeps _ (mwhen _ _) _ => apply k_when
  | |- keeps _ (miter _ _) _ => apply k_iter
  | |- keeps _ (mmap _ _) (fun _ => True) => apply k_map_any
  | |- keeps _ (mrep _ _) (fun _ => True) => eapply k_imp; [apply k_rep|]
  | |- keeps _ (if ?b then _ else _) _ => destruct b
  | |- keeps _ (match ?b with _ => _ end) _ => destruct b
  | |- True => exact Logic.I
  end.
Ltac kp := repeat k1.
Ltac kb := apply k_bind with (Q := fun _ => True); [kp|intros ? _].

Section Functions.
Variable I : heap -> Prop.
Hypothesis SI : stable I.
Local Notation any m := (keeps I m (fun _ => True)).
Lemma k_write_source a tr : any (write_source_field true a tr).
Proof. unfold write_source_field. kp. Qed.
Lemma k_new_elem s : any (new_elem true s).
Proof. destruct s; cbn [new_elem]; unfold new_source; kp; apply k_write_source. Qed.
Lemma k_source_fail nx ny : keeps I (new_elem true (SSource nx ny)) (fun _ => False).
Proof.
  cbn [new_elem]. unfold new_source. do 6 kb.
  apply k_fail. unfold write_source_field. kb. apply k_fail. apply k_scratch_fail.
Qed.
Lemma k_logger k refs req : any (new_logger k refs req).
Proof. unfold new_logger. kp. Qed.
Lemma k_opt_logger k refs o : any (opt_logger k refs o).
Proof. destruct o; cbn [opt_logger]; kp. apply k_logger. Qed.
Definition made (s : bunch_shape) (b : m_bunch * list m_logger) : Prop := length (mb_ps (fst b)) = shape_nop s.
Lemma k_new_bunch s : keeps I (new_bunch true s) (made s).
Proof.
  destruct s; cbn [new_bunch].
  - do 4 (apply k_bind with (Q := fun _ => True); [first [apply k_opt_logger|kp]|intros ? _]). apply k_ret. reflexivity.
  - do 3 kb. eapply k_bind; [apply k_rep; kp|intros ps E]. do 4 (apply k_bind with (Q := fun _ => True); [first [apply k_opt_logger|kp]|intros ? _]). apply k_ret. exact E.
  - kb. eapply k_bind; [apply k_rep; kp|intros ps E]. eapply k_bind; [apply k_opt_logger|intros ? _]. apply k_ret. exact E.
Qed.
Definition built (s : obs_shape) (o : m_obs) : Prop :=
  match s with
  | SScreen ok lat _ _ => mo_kind o = OScreen ok /\ mo_lattice o = lat
  | SSnap ok lat => mo_kind o = OSnap ok /\ mo_lattice o = lat
  | _ => True
  end.
Lemma k_new_obs s : keeps I (new_obs true s) (built s).
Proof.
  destruct s; cbn [new_obs].
  - do 2 kb. apply k_ret. split; reflexivity.
  - kb. apply k_ret. split; reflexivity.
  - apply k_imp with (Q := fun _ => True); [kp|intros; exact Logic.I].
  - apply k_imp with (Q := fun _ => True); [kp|intros; exact Logic.I].
Qed.
Lemma k_mesh_fail ok lat np time field : keeps I (new_obs true (SMesh ok lat np time field)) (fun _ => False).
Proof. cbn [new_obs]. kb. apply k_fail. apply k_scratch_fail. Qed.
Lemma k_del_bunch b : any (del_bunch true b).
Proof. unfold del_bunch. kp. Qed.
Lemma k_del_obs o : any (del_obs true o).
Proof. unfold del_obs. kp. Qed.
Lemma k_log_update l : any (log_update l).
Proof. unfold log_update. kp. Qed.
Lemma k_log_write l : any (log_write true l).
Proof. unfold log_write. kp. Qed.
Lemma k_watch mb n w : any (watch_at true mb n w).
Proof. unfold watch_at. kp. Qed.
Lemma k_distribute rank chunk : forall ps node cnt, any (distribute rank chunk node cnt ps).
Proof. induction ps as [|p ps IH]; intros node cnt; cbn [distribute]; kp; apply IH. Qed.
Lemma k_one_step rank lat els mb tb mbuf tbuf fels ws n logs : any (one_step true rank lat els mb tb mbuf tbuf fels ws n logs).
Proof. unfold one_step. kp; first [apply k_log_update|apply k_watch]. Qed.
Lemma k_steps rank lat els mb tb mbuf tbuf fels ws : forall n k logs, any (steps true rank lat els mb tb mbuf tbuf fels ws n k logs).
Proof. induction n as [|n IH]; intros k logs; cbn [steps]; kp; [apply k_one_step|apply IH]. Qed.
Lemma k_remove : forall els, any (remove_fels els).
Proof. induction els as [|e els IH]; cbn [remove_fels]; kp; apply IH. Qed.
Lemma k_output o : any (obs_output true o).
Proof. unfold obs_output. kp. Qed.
Lemma k_store mb o : any (store_positions mb o).
Proof. unfold store_positions. kp. Qed.
Lemma k_observe rank lat els mb tb o : any (observe true rank lat els mb tb o).
Proof. unfold observe. kp; first [apply k_store|apply k_output]. Qed.
Lemma k_screen_fail lat els mb tb o : mo_kind o = OScreen true -> keeps I (observe true 0 lat els mb tb o) (fun _ => False).
Proof.
  intros E. unfold observe. do 6 kb. cbn [Nat.eqb]. apply k_fail.
  kb. unfold store_positions. rewrite E. eapply k_bind; [apply (k_ret _ o (fun x => x = o)); reflexivity|intros ? ->].
  apply k_fail. unfold obs_output. rewrite E. cbn [mwhen]. kb. kb. apply k_fail. apply k_scratch_fail.
Qed.
End Functions.

(* a snapshot of a beam keeps an array *)
Definition keeps_array (o : m_obs) (h : heap) : Prop := exists b, mo_buf o = Some b /\ 0 < mo_stored o /\ array b h.
Lemma observe_snap lat els mb tb o ok h : mo_kind o = OSnap ok -> mo_lattice o = false -> 0 < beam_nop mb -> fresh h ->
  wp (observe true 0 lat els mb tb o) keeps_array h.
Proof.
  intros Ek El Hn. revert h.
  assert (St : forall h, fresh h -> wp (store_positions mb o) (fun o' h' => exists b, mo_buf o' = Some b /\ 0 < mo_stored o' /\ array b h') h).
  { intros h Hh. unfold store_positions. rewrite Ek, El. apply wp_bind. unfold wp at 1, mnew. apply wp_bind.
    assert (A : array (h_next h) (Heap (S (h_next h)) (Cell (h_next h) Arr KSnap :: h_live h))).
    { split; [exact (proj1 fresh_stable h Arr KSnap Hh)|]. split; [cbn; lia|]. intros c [<-|Hc] E; [reflexivity|]. specialize (Hh c Hc). lia. }
    eapply wp_imp; [exact (k_uses _ (beam_refs mb) _ A)|]. intros _ h' [A' _]. unfold wp, mret. exists (h_next h). auto. }
  intros h Hh. unfold observe.
  assert (Go : forall {A B} (m : mem A) (f : A -> mem B) Q h, fresh h -> keeps fresh m (fun _ => True) -> (forall a h', fresh h' -> wp (f a) Q h') -> wp (mbind m f) Q h).
  { intros A B m f Q h0 Hf Hm Hk. apply wp_bind. eapply wp_imp; [exact (Hm h0 Hf)|]. intros a h' [X _]. apply Hk. exact X. }
  pose proof fresh_stable as FS.
  do 6 (apply Go; [assumption|kp|clear h Hh; intros ? h Hh]). cbn [Nat.eqb]. apply wp_bind.
  apply Go; [assumption|kp|clear h Hh; intros ? h Hh].
  apply wp_bind. eapply wp_imp; [exact (St h Hh)|]. intros o' h' (b & Eb & Hs & A).
  pose proof (array_stable b) as AS. apply wp_bind. eapply wp_imp; [exact (k_output (array b) AS o' h' A)|]. intros _ h2 [A2 _]. unfold wp at 1, mret.
  apply wp_bind. eapply wp_imp; [exact (k_del (array b) AS Arr _ h2 A2)|]. intros _ h3 [A3 _].
  apply wp_bind. eapply wp_imp; [exact (k_del (array b) AS Arr _ h3 A3)|]. intros _ h4 [A4 _]. unfold wp. exists b. auto.
Qed.
Lemma observes_snap lat els mb tb ok : 0 < beam_nop mb -> forall obs o h, In o obs -> mo_kind o = OSnap ok -> mo_lattice o = false -> fresh h ->
  wp (mmap (observe true 0 lat els mb tb) obs) (fun ys h' => exists o', In o' ys /\ keeps_array o' h') h.
Proof.
  intros Hn. induction obs as [|x obs IH]; intros o h Ho Ek El Hh; [destruct Ho|]. cbn [mmap]. apply wp_bind. destruct Ho as [->|Ho].
  - eapply wp_imp; [exact (observe_snap lat els mb tb o ok h Ek El Hn Hh)|]. intros o' h' (b & Eb & Hs & A). apply wp_bind.
    eapply wp_imp; [exact (k_map_any (array b) _ obs (fun x => k_observe (array b) (array_stable b) 0 lat els mb tb x) h' A)|]. intros ys h2 [A2 _].
    unfold wp, mret. exists o'. split; [left; reflexivity|]. exists b. auto.
  - eapply wp_imp; [exact (k_observe fresh fresh_stable 0 lat els mb tb x h Hh)|]. intros y h' [Hf _]. apply wp_bind.
    eapply wp_imp; [exact (IH o h' Ho Ek El Hf)|]. intros ys h2 (o' & Hi & K). unfold wp, mret. exists o'. split; [right; exact Hi|exact K].
Qed.
Lemma del_array_fail b h : array b h -> wp (mdel true One b) (fun _ _ => False) h.
Proof.
  intros (_ & _ & F). unfold wp, mdel. destruct (find _ _) as [c|] eqn:E; [|exact Logic.I]. apply find_some in E. destruct E as [Hc Ec]. apply Nat.eqb_eq in Ec.
  rewrite (F c Hc Ec). cbn. exact Logic.I.
Qed.
Lemma del_obs_fail b o h : array b h -> mo_buf o = Some b -> 0 < mo_stored o -> wp (del_obs true o) (fun _ _ => False) h.
Proof.
  intros A Eb Hs. pose proof (array_stable b) as AS. unfold del_obs. apply wp_bind. eapply wp_imp; [exact (k_use (array b) _ h A)|]. intros _ h1 [A1 _].
  apply wp_bind. eapply wp_imp; [apply (k_iter (array b) (mdel true One) (mo_traces o)); [intros x _; apply k_del; exact AS|exact A1]|]. intros _ h2 [A2 _].
  apply wp_bind. rewrite Eb. apply Nat.ltb_lt in Hs. rewrite Hs. cbn [mwhen]. eapply wp_imp; [exact (del_array_fail b h2 A2)|]. intros _ h3 [].
Qed.
Lemma del_all_fail b o : mo_buf o = Some b -> 0 < mo_stored o -> forall obs h, In o obs -> array b h -> wp (miter (del_obs true) obs) (fun _ _ => False) h.
Proof.
  intros Eb Hs. induction obs as [|x obs IH]; intros h Ho A; [destruct Ho|]. cbn [miter]. apply wp_bind. destruct Ho as [->|Ho].
  - eapply wp_imp; [exact (del_obs_fail b o h A Eb Hs)|]. intros _ h' [].
  - eapply wp_imp; [exact (k_del_obs (array b) (array_stable b) x h A)|]. intros _ h' [A' _]. exact (IH h' Ho A').
Qed.

Lemma nop_made ss : forall bl, Forall2 made ss bl -> length (flat_map mb_ps (map fst bl)) = list_sum (map shape_nop ss).
Proof.
  induction ss as [|s ss IH]; intros bl H; inversion H; subst; [reflexivity|]. cbn [map flat_map list_sum fold_right]. rewrite app_length.
  match goal with H : made s _ |- _ => red in H; rewrite H end. rewrite IH by assumption. reflexivity.
Qed.
Lemma Forall2_in_left {A B} (R : A -> B -> Prop) l m x : Forall2 R l m -> In x l -> exists y, In y m /\ R x y.
Proof.
  induction 1 as [|a b l m H _ IH]; intros Hx; [destruct Hx|]. destruct Hx as [->|Hx]; [exists b; split; [left; reflexivity|exact H]|].
  destruct (IH Hx) as (y & Hy & HR). exists y. split; [right; exact Hy|exact HR].
Qed.
Lemma wp_go {A B} (m : mem A) (f : A -> mem B) Q R h : fresh h -> keeps fresh m R -> (forall a h', fresh h' -> R a -> wp (f a) Q h') -> wp (mbind m f) Q h.
Proof. intros Hf Hm Hk. apply wp_bind. eapply wp_imp; [exact (Hm h Hf)|]. intros a h' [X Y]. apply Hk; assumption. Qed.

Lemma program_fails r h : mismatch r = true -> fresh h -> wp (program true r) (fun _ _ => False) h.
Proof.
  intros HM Hh. pose proof fresh_stable as FS.
  assert (El : forall s, In s (rs_elems r) -> elem_mismatch s = true -> wp (program true r) (fun _ _ => False) h).
  { intros s Hs Es. destruct s as [|nx ny]; [discriminate|]. unfold program.
    do 3 (apply wp_go with (R := fun _ => True); [assumption|kp|clear h Hh; intros ? h Hh _]).
    apply wp_go with (R := fun _ => False); [assumption| |intros ? ? _ []].
    apply k_map_fail with (x := SSource nx ny); [intros z _; apply k_new_elem; exact FS|exact Hs|apply k_source_fail; exact FS]. }
  unfold mismatch in HM. apply orb_prop in HM. destruct HM as [HM|HM].
  { apply existsb_exists in HM. destruct HM as (s & Hs & Es). exact (El s Hs Es). }
  clear El. apply existsb_exists in HM. destruct HM as (s & Hs & Es).
  unfold program.
  do 3 (apply wp_go with (R := fun _ => True); [assumption|kp|clear h Hh; intros ? h Hh _]).
  apply wp_go with (R := fun _ => True); [assumption|apply k_map_any; intros; apply k_new_elem; exact FS|clear h Hh; intros ? h Hh _].
  apply wp_go with (R := fun _ => True); [assumption|kp|clear h Hh; intros mba h Hh _].
  apply wp_go with (R := Forall2 made (rs_beam r)); [assumption|apply k_map; intros; apply k_new_bunch; exact FS|clear h Hh; intros bl h Hh Hbl].
  assert (NOP : beam_nop (MBeam mba (map fst bl)) = total_nop r) by exact (nop_made _ _ Hbl).
  apply wp_go with (R := fun _ => True); [assumption|kp|clear h Hh; intros fels h Hh _].
  cbv zeta.
  destruct s as [ok lat nx ny|ok lat|ok lat np time field|ok lat]; cbn [obs_mismatch] in Es; [| | |discriminate Es].
  3:{ apply wp_go with (R := fun _ => False); [assumption| |intros ? ? _ []].
      apply k_map_fail with (x := SMesh ok lat np time field); [|exact Hs|apply k_mesh_fail; exact FS].
      intros z _. apply k_imp with (Q := built z); [apply k_new_obs; exact FS|intros; exact Logic.I]. }
  all: apply wp_go with (R := Forall2 built (rs_obs r)); [assumption|apply k_map; intros; apply k_new_obs; exact FS|clear h Hh; intros obs h Hh Hobs].
  all: assert (R0 : rs_rank r = 0) by (repeat (apply andb_prop in Es; destruct Es as [Es ?]); apply Nat.eqb_eq; assumption); rewrite R0 in *; cbn [Nat.eqb andb] in Es.
  all: do 17 (apply wp_go with (R := fun _ => True); [assumption|kp; first [apply k_distribute|apply k_opt_logger|apply k_watch|apply k_log_update|apply k_steps|apply k_log_write|apply k_remove]; assumption|clear h Hh; intros ? h Hh _]).
  - destruct (Forall2_in_left _ _ _ _ Hobs Hs) as (o & Ho & Ek & _). rewrite Es in Ek.
    apply wp_go with (R := fun _ => False); [assumption| |intros ? ? _ []].
    apply k_map_fail with (x := o); [intros z _; apply k_observe; exact FS|exact Ho|apply k_screen_fail; [exact FS|exact Ek]].
  - destruct (Forall2_in_left _ _ _ _ Hobs Hs) as (o & Ho & Ek & El).
    apply andb_prop in Es. destruct Es as [Es1 Es2]. destruct lat; [discriminate|]. apply Nat.ltb_lt in Es2. rewrite <- NOP in Es2.
    apply wp_bind. eapply wp_imp; [exact (observes_snap _ _ _ _ ok Es2 obs o h Ho Ek El Hh)|]. intros obs' h' (o' & Ho' & b & Eb & Hst & A).
    apply wp_bind. eapply wp_imp; [exact (del_all_fail b o' Eb Hst obs' h' Ho' A)|]. intros _ h2 [].
Qed.

Theorem forms_undefined r : mismatch r = true -> run true r = UB.
Proof.
  intros H. pose proof (program_fails r (Heap 0 []) H ltac:(intros c [])) as W. unfold wp in W. unfold run.
  destruct (program true r (Heap 0 [])) as [[a h]| | |]; try contradiction. reflexivity.
Qed.
Theorem propagate_undefined src tgt counts : run_propagate true src tgt counts = UB.
Proof.
  assert (W : wp (propagate_mem true src tgt counts) (fun _ _ => False) (Heap 0 [])).
  { unfold propagate_mem, new_mesh. apply wp_go with (R := fun _ => False); [intros c []|apply k_mesh_fail; exact fresh_stable|intros ? ? _ []]. }
  unfold wp in W. unfold run_propagate. destruct (propagate_mem true src tgt counts (Heap 0 [])) as [[a h]| | |]; try contradiction. reflexivity.
Qed.
