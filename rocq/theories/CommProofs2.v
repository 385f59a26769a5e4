(* Processes which all return from main have agreed in their collective operations. *)
From Coq Require Import ZArith List Bool Arith Lia.
From Verif Require Import Base CommModel CommProofs.
Import ListNotations.
Local Open Scope list_scope.

Lemma list_ext {A} (l : list A) : forall m, (forall i, nth_error l i = nth_error m i) -> l = m.
Proof.
  induction l as [|x l IH]; intros [|y m] H; [reflexivity|specialize (H 0); discriminate|specialize (H 0); discriminate|].
  pose proof (H 0) as H0. cbn in H0. inversion H0; subst. f_equal. apply IH. intros i. exact (H (S i)).
Qed.

Section Comm.
Context {D W : Type}.
Variables (none : D) (gather reduce : list D -> D).
Notation delivers := (delivers none gather reduce).
Notation sends_at := (@sends_at D W none).
Notation step := (@step D W none gather reduce).
Notation run := (@run D W none gather reduce).
Notation sys := (system D W).
Notation follows := (@follows D W).

(* Files are read only before the d-th operation, which is a full one, and written only
   afterwards, by the first process only. *)
Inductive tame : nat -> bool -> proc D W -> Prop :=
| T_done d b : tame d b Done
| T_died d b f : tame d b (Died f)
| T_call d b c s k : (d = 1 -> full c = true) -> (forall a, tame (pred d) b (k a)) -> tame d b (Call c s k)
| T_write f p : tame 0 true p -> tame 0 true (Write f p)
| T_read d b k : tame (S d) b (k []) -> tame (S d) b (Read k).

Section Run.
Variables (d0 : nat) (ps : list (proc D W)).
Hypothesis TA : forall r p, nth_error ps r = Some p -> tame d0 (r =? 0) p.
Hypothesis NE : ps <> [].

Definition rank_ran (g : sys) (r : nat) (p : proc D W) (q : pstate D W) (wr : list W) : Prop :=
  exists log : list (coll * D * D),
  (forall l w m, follows (d0 - left q) (code q) l w m -> exists m', follows d0 p (log ++ l) (wr ++ w) m') /\
  map fst log = firstn (left q) (entered q) /\
  (forall i c s a, nth_error log i = Some (c, s, a) -> a = delivers c r (sends_at i g) /\
     forall o q', nth_error (ranks g) o = Some q' -> needs c r o = true -> i < length (entered q')) /\
  (waiting q = true -> exists h c s k, code q = Call c s k /\ entered q = h ++ [(c, s)]) /\
  tame (d0 - left q) (r =? 0) (code q).
Definition inv2 (g : sys) : Prop :=
  length (ranks g) = length ps /\
  (forall r p q, nth_error ps r = Some p -> nth_error (ranks g) r = Some q -> rank_ran g r p q (match r with O => written g | S _ => [] end)) /\
  (written g <> [] -> forall q, In q (ranks g) -> d0 <= length (entered q)) /\
  (forall q q', In q (ranks g) -> In q' (ranks g) -> d0 <= left q -> d0 <= length (entered q')).

(* what has been delivered does not depend on what is entered later *)
Definition extends (g g' : sys) : Prop := forall o q', nth_error (ranks g') o = Some q' ->
  exists q t, nth_error (ranks g) o = Some q /\ entered q' = entered q ++ t.
Lemma sends_len i g : length (sends_at i g) = length (ranks g).
Proof. unfold CommModel.sends_at. apply map_length. Qed.
Lemma sends_nth i g o q : nth_error (ranks g) o = Some q ->
  nth_error (sends_at i g) o = Some (match nth_error (entered q) i with Some (_, d) => d | None => none end).
Proof. intros H. unfold CommModel.sends_at. rewrite nth_error_map, H. reflexivity. Qed.
Lemma delivers_later g g' c r i : length (ranks g') = length (ranks g) -> extends g g' -> r < length (ranks g) ->
  (forall o q, nth_error (ranks g) o = Some q -> needs c r o = true -> i < length (entered q)) ->
  delivers c r (sends_at i g') = delivers c r (sends_at i g).
Proof.
  intros L X Hr H.
  assert (P : forall o, o < length (ranks g) -> needs c r o = true -> nth_error (sends_at i g') o = nth_error (sends_at i g) o).
  { intros o Ho N. destruct (nth_ex (ranks g') o) as (q' & E'); [lia|]. destruct (X o q' E') as (q & t & E & Et).
    rewrite (sends_nth _ _ _ _ E'), (sends_nth _ _ _ _ E), Et. specialize (H o q E N). rewrite nth_error_app1 by exact H. reflexivity. }
  assert (A : (forall o, needs c r o = true) -> sends_at i g' = sends_at i g).
  { intros N. assert (LL : length (sends_at i g') = length (sends_at i g)) by (rewrite !sends_len; exact L).
    apply nth_ext with (d := none) (d' := none); [exact LL|]. intros o Ho. rewrite sends_len, L in Ho. specialize (P o Ho (N o)).
    destruct (nth_error (sends_at i g) o) as [a|] eqn:E.
    - rewrite (nth_error_nth _ _ none E), (nth_error_nth _ _ none P). reflexivity.
    - apply nth_error_None in E. rewrite sends_len in E. lia. }
  destruct c as [| |n|n|n]; cbn [CommModel.delivers]; try reflexivity.
  - specialize (P 0 ltac:(lia) eq_refl). destruct (sends_at i g') as [|a l], (sends_at i g) as [|b l']; cbn in *; congruence.
  - rewrite A; [reflexivity|]. reflexivity.
  - destruct r; [|reflexivity]. rewrite A; [reflexivity|]. reflexivity.
Qed.
Lemma extends_set g r q q' w t : nth_error (ranks g) r = Some q -> entered q' = entered q ++ t -> extends g (SYS (lset (ranks g) r q') w).
Proof.
  intros Hq He o q2 Ho. cbn [ranks] in Ho. destruct (Nat.eq_dec r o) as [<-|N].
  - rewrite (lset_same _ _ _ _ Hq) in Ho. inversion Ho; subst q2. eauto.
  - rewrite lset_other in Ho by exact N. exists q2, []. rewrite app_nil_r. auto.
Qed.
(* nothing changes for the others *)
Lemma ran_later g g' r p q wr : length (ranks g') = length (ranks g) -> extends g g' -> r < length (ranks g) ->
  rank_ran g r p q wr -> rank_ran g' r p q wr.
Proof.
  intros L X Hr (log & A & B & C & E). exists log. split; [exact A|]. split; [exact B|]. split; [|exact E].
  intros i c s a Hi. destruct (C i c s a Hi) as (C1 & C2). split.
  - rewrite C1. symmetry. apply delivers_later; assumption.
  - intros o q' Ho N. destruct (X o q' Ho) as (q0 & t & E0 & Et). rewrite Et, app_length. specialize (C2 o q0 E0 N). lia.
Qed.

Lemma tame_call d b c s k : tame d b (Call c s k) -> (d = 1 -> full c = true) /\ forall a, tame (pred d) b (k a).
Proof. intros H. inversion H; auto. Qed.

Lemma step_inv2 g g' : inv2 g -> step g g' -> inv2 g'.
Proof.
  intros (L & R & QW & QG) S. destruct S as [g r h c s k Hq|g r h x c s k Hq Hn|g r h f p Hq|g r h k Hq].
  - (* enter *)
    assert (X : extends g (with_rank r (PRC (h ++ [(c, s)]) (Call c s k) true) g)) by (eapply extends_set; [exact Hq|reflexivity]).
    assert (LR : r < length (ranks g)) by (eapply nth_lt; eauto).
    assert (LG : length (ranks (with_rank r (PRC (h ++ [(c, s)]) (Call c s k) true) g)) = length (ranks g)) by (cbn [ranks with_rank]; apply lset_len).
    split; [rewrite LG; exact L|]. split; [|split].
    + intros r2 p2 q2 Hp H2. cbn [ranks with_rank written] in H2 |- *. destruct (Nat.eq_dec r r2) as [<-|N].
      * rewrite (lset_same _ _ _ _ Hq) in H2. inversion H2; subst q2.
        destruct (ran_later _ _ _ _ _ _ LG X LR (R r p2 _ Hp Hq)) as (log & A & B & C & E & F).
        exists log. unfold left in *. cbn [entered code waiting] in *. rewrite app_length. cbn [length].
        replace (length h + 1 - 1) with (length h) by lia. rewrite Nat.sub_0_r in *. split; [exact A|]. split; [|split; [exact C|split; [eauto 8|exact F]]].
        rewrite B, firstn_app, Nat.sub_diag, firstn_O, app_nil_r. reflexivity.
      * rewrite lset_other in H2 by exact N. apply (ran_later g); [exact LG|exact X|eapply nth_lt; eauto|].
        apply R; assumption.
    + cbn [written with_rank ranks]. intros N q Iq. destruct (in_lset _ _ _ _ _ Hq Iq) as [->|Iq']; [|exact (QW N q Iq')]. cbn [entered]. rewrite app_length.
      specialize (QW N _ (nth_error_In _ _ Hq)). cbn [entered] in QW. lia.
    + cbn [ranks with_rank]. intros q q2 Iq Iq2 B.
      assert (B' : forall q2, In q2 (ranks g) -> d0 <= length (entered q2)).
      { destruct (in_lset _ _ _ _ _ Hq Iq) as [->|Iq']; [|intros q3 I3; exact (QG q q3 Iq' I3 B)]. intros q3 I3. apply (QG _ q3 (nth_error_In _ _ Hq) I3).
        unfold left in *. cbn [entered waiting] in *. rewrite app_length in B. cbn [length] in B. lia. }
      destruct (in_lset _ _ _ _ _ Hq Iq2) as [->|Iq2']; [|exact (B' _ Iq2')]. cbn [entered]. rewrite app_length. specialize (B' _ (nth_error_In _ _ Hq)). cbn [entered] in B'. lia.
  - (* leave *)
    assert (LH : length (h ++ [x]) = S (length h)) by (rewrite app_length; cbn; lia).
    set (q1 := PRC (h ++ [x]) (k (delivers c r (sends_at (length h) g))) false) in *.
    assert (X : extends g (with_rank r q1 g)) by (eapply extends_set with (t := []); [exact Hq|cbn; rewrite app_nil_r; reflexivity]).
    assert (LR : r < length (ranks g)) by (eapply nth_lt; eauto).
    assert (LG : length (ranks (with_rank r q1 g)) = length (ranks g)) by (cbn [ranks with_rank]; apply lset_len).
    assert (TC : d0 - length h = 1 -> full c = true).
    { destruct (nth_ex ps r) as (p & Ep); [lia|]. destruct (R r p _ Ep Hq) as (log & _ & _ & _ & _ & F). unfold left in F. cbn [entered waiting code] in F.
      rewrite LH in F. replace (S (length h) - 1) with (length h) in F by lia. apply tame_call in F. apply F. }
    split; [rewrite LG; exact L|]. split; [|split].
    + intros r2 p2 q2 Hp H2. cbn [ranks with_rank written] in H2 |- *. destruct (Nat.eq_dec r r2) as [<-|N].
      * rewrite (lset_same _ _ _ _ Hq) in H2. inversion H2; subst q2.
        destruct (ran_later _ _ _ _ _ _ LG X LR (R r p2 _ Hp Hq)) as (log & A & B & C & E & F).
        destruct (E eq_refl) as (h' & c' & s' & k' & E1 & E2). cbn [code entered] in E1, E2. inversion E1; subst c' s' k'.
        apply app_inj_tail in E2. destruct E2 as (<- & ->).
        assert (LL : length log = length h).
        { rewrite <- (map_length fst log), B. unfold left. cbn [entered waiting]. rewrite firstn_length, LH. lia. }
        exists (log ++ [(c, s, delivers c r (sends_at (length h) g))]).
        unfold left in *. cbn [entered code waiting q1] in *. rewrite LH in *. rewrite Nat.sub_0_r.
        replace (S (length h) - 1) with (length h) in * by lia.
        apply tame_call in F. destruct F as (F1 & F2). replace (d0 - S (length h)) with (pred (d0 - length h)) by lia.
        split; [|split; [|split; [|split]]].
        -- intros l w m Hf. rewrite <- app_assoc. cbn [app]. eapply A. constructor; [exact F1|exact Hf].
        -- rewrite map_app, B. cbn [map fst]. rewrite firstn_app, Nat.sub_diag, firstn_O, app_nil_r, firstn_all.
           rewrite firstn_all2 by (rewrite app_length; cbn; lia). reflexivity.
        -- intros i c2 s2 a2 Hi. destruct (Nat.eq_dec i (length log)) as [->|Ni].
           ++ rewrite nth_error_app2, Nat.sub_diag in Hi by lia. cbn in Hi. inversion Hi; subst. rewrite LL. split.
              ** symmetry. apply delivers_later; [exact LG|exact X|exact LR|exact Hn].
              ** intros o q' Ho No. destruct (X o q' Ho) as (q0 & t & E0 & Et). rewrite Et, app_length. specialize (Hn o q0 E0 No). lia.
           ++ rewrite nth_error_app1 in Hi. { exact (C i c2 s2 a2 Hi). } apply nth_lt in Hi. rewrite app_length in Hi. cbn in Hi. lia.
        -- discriminate.
        -- apply F2.
      * rewrite lset_other in H2 by exact N. apply (ran_later g); [exact LG|exact X|eapply nth_lt; eauto|].
        apply R; assumption.
    + cbn [written with_rank ranks]. intros N q Iq. destruct (in_lset _ _ _ _ _ Hq Iq) as [->|Iq']; [|exact (QW N q Iq')].
      specialize (QW N _ (nth_error_In _ _ Hq)). cbn [entered] in QW. exact QW.
    + cbn [ranks with_rank]. intros q q2 Iq Iq2 B.
      assert (B' : forall q2, In q2 (ranks g) -> d0 <= length (entered q2)).
      { destruct (in_lset _ _ _ _ _ Hq Iq) as [->|Iq']; [|intros q3 I3; exact (QG q q3 Iq' I3 B)]. intros q3 I3.
        unfold left in B. cbn [entered waiting q1] in B. rewrite LH, Nat.sub_0_r in B.
        destruct (le_lt_dec d0 (length h)) as [LE|GT].
        - apply (QG _ q3 (nth_error_In _ _ Hq) I3). unfold left. cbn [entered waiting]. rewrite LH. lia.
        - assert (FC : full c = true) by (apply TC; lia). apply In_nth_error in I3. destruct I3 as (o & Eo).
          assert (NC : needs c r o = true) by (destruct c; try discriminate FC; reflexivity). specialize (Hn o q3 Eo NC). lia. }
      destruct (in_lset _ _ _ _ _ Hq Iq2) as [->|Iq2']; [|exact (B' _ Iq2')]. specialize (B' _ (nth_error_In _ _ Hq)). cbn [entered] in B'. exact B'.
  - (* write *)
    assert (X : extends g (SYS (lset (ranks g) r (PRC h p false)) (written g ++ [f]))) by (eapply extends_set with (t := []); [exact Hq|cbn; rewrite app_nil_r; reflexivity]).
    assert (LR : r < length (ranks g)) by (eapply nth_lt; eauto).
    assert (LG : length (ranks (SYS (lset (ranks g) r (PRC h p false)) (written g ++ [f]))) = length (ranks g)) by (cbn [ranks]; apply lset_len).
    destruct (nth_ex ps r) as (p0 & Ep); [lia|].
    destruct (R r p0 _ Ep Hq) as (log & A & B & C & E & F). unfold left in *. cbn [entered code waiting] in *. rewrite Nat.sub_0_r in *.
    assert (TW : d0 - length h = 0 /\ r = 0 /\ tame (d0 - length h) (r =? 0) p).
    { remember (d0 - length h) as z eqn:Ez. remember (r =? 0) as b eqn:Eb. inversion F; subst z b. split; [reflexivity|]. split; [|assumption].
      match goal with H : true = (r =? 0) |- _ => symmetry in H; apply Nat.eqb_eq in H; exact H end. }
    destruct TW as (TD & -> & TP).
    assert (B' : forall q2, In q2 (ranks g) -> d0 <= length (entered q2)).
    { intros q2 I2. apply (QG _ q2 (nth_error_In _ _ Hq) I2). cbn [entered waiting]. lia. }
    assert (B2 : forall q2, In q2 (lset (ranks g) 0 (PRC h p false)) -> d0 <= length (entered q2)).
    { intros q2 I2. destruct (in_lset _ _ _ _ _ Hq I2) as [->|I2']; [|exact (B' _ I2')]. cbn [entered]. lia. }
    split; [rewrite LG; exact L|]. split; [|split; intros; apply B2; assumption].
    intros r2 p2 q2 Hp H2. cbn [ranks written] in H2 |- *. destruct (Nat.eq_dec 0 r2) as [<-|N].
    * rewrite (lset_same _ _ _ _ Hq) in H2. inversion H2; subst q2. assert (p2 = p0) by congruence. subst p2.
      destruct (ran_later _ _ _ _ _ _ LG X LR (R 0 p0 _ Ep Hq)) as (log' & A' & Bb & C' & _). exists log'. unfold left in *. cbn [entered code waiting] in *. rewrite Nat.sub_0_r in *.
      split; [|split; [exact Bb|split; [exact C'|split; [discriminate|exact TP]]]].
      intros l w m Hf. rewrite <- app_assoc. cbn [app]. eapply A'. rewrite TD in *. constructor. exact Hf.
    * rewrite lset_other in H2 by exact N. apply (ran_later g); [exact LG|exact X|eapply nth_lt; eauto|].
      pose proof (R r2 p2 q2 Hp H2) as Z. destruct r2; [congruence|exact Z].
  - (* read *)
    set (q1 := PRC h (k (written g)) false) in *.
    assert (X : extends g (with_rank r q1 g)) by (eapply extends_set with (t := []); [exact Hq|cbn; rewrite app_nil_r; reflexivity]).
    assert (LR : r < length (ranks g)) by (eapply nth_lt; eauto).
    assert (LG : length (ranks (with_rank r q1 g)) = length (ranks g)) by (cbn [ranks with_rank]; apply lset_len).
    destruct (nth_ex ps r) as (p0 & Ep); [lia|].
    destruct (ran_later _ _ _ _ _ _ LG X LR (R r p0 _ Ep Hq)) as (log & A & B & C & E & F). unfold left in A, B, F. cbn [entered code waiting] in *. rewrite Nat.sub_0_r in *.
    assert (TR : d0 - length h <> 0 /\ tame (d0 - length h) (r =? 0) (k [])).
    { remember (d0 - length h) as z eqn:Ez. inversion F; subst z. split; [discriminate|]. assumption. }
    destruct TR as (TD & TP).
    assert (WN : written g = []). { destruct (written g) as [|f l] eqn:EW; [reflexivity|]. exfalso. assert (NN : f :: l <> []) by discriminate.
      specialize (QW NN _ (nth_error_In _ _ Hq)). cbn [entered] in QW. lia. }
    split; [rewrite LG; exact L|]. split; [|split].
    + intros r2 p2 q2 Hp H2. cbn [ranks with_rank written] in H2 |- *. destruct (Nat.eq_dec r r2) as [<-|N].
      * rewrite (lset_same _ _ _ _ Hq) in H2. inversion H2; subst q2. assert (p2 = p0) by congruence. subst p2.
        exists log. unfold left. cbn [entered code waiting q1]. rewrite Nat.sub_0_r.
        split; [|split; [exact B|split; [exact C|split; [discriminate|rewrite WN; exact TP]]]].
        intros l w m Hf. eapply A. rewrite WN in Hf. destruct (d0 - length h) as [|z] eqn:Z; [congruence|]. constructor. exact Hf.
      * rewrite lset_other in H2 by exact N. apply (ran_later g); [exact LG|exact X|eapply nth_lt; eauto|].
        apply R; assumption.
    + cbn [written with_rank]. congruence.
    + cbn [ranks with_rank]. intros q q2 Iq Iq2 Bq.
      assert (B' : forall q2, In q2 (ranks g) -> d0 <= length (entered q2)).
      { destruct (in_lset _ _ _ _ _ Hq Iq) as [->|Iq']; [|intros q3 I3; exact (QG q q3 Iq' I3 Bq)]. intros q3 I3. apply (QG _ q3 (nth_error_In _ _ Hq) I3).
        unfold left in *. cbn [entered waiting q1] in *. exact Bq. }
      destruct (in_lset _ _ _ _ _ Hq Iq2) as [->|Iq2']; [|exact (B' _ Iq2')]. specialize (B' _ (nth_error_In _ _ Hq)). exact B'.
Qed.

Lemma start_inv2 : inv2 (start ps).
Proof.
  split; [cbn [start ranks]; apply map_length|]. split; [|split].
  - intros r p q Hp Hq. cbn [start ranks written] in *. rewrite nth_error_map, Hp in Hq. inversion Hq; subst q. exists [].
    unfold left. cbn [entered code waiting length app map firstn]. rewrite Nat.sub_0_r. split; [|split; [reflexivity|split; [|split; [discriminate|apply TA, Hp]]]].
    + intros l w m F. exists m. destruct r; exact F.
    + intros [|i] c s a H; discriminate.
  - cbn [start written]. congruence.
  - cbn [start ranks]. intros q q' Iq Iq' B. apply in_map_iff in Iq, Iq'. destruct Iq as (p & <- & _), Iq' as (p' & <- & _).
    unfold left in B. cbn in B. cbn. lia.
Qed.

Lemma run_inv2 n g : run n (start ps) g -> inv2 g.
Proof.
  intros H. remember (start ps) as g0 eqn:Eg. induction H as [g|n g g1 g2 H IH S]; [subst; apply start_inv2|]. eapply step_inv2; [apply IH; exact Eg|exact S].
Qed.

Theorem finished_sync n g : run n (start ps) g -> finished g -> ~ mismatch g -> sync none gather reduce d0 ps (written g).
Proof.
  intros HR F NM. destruct (run_inv2 _ _ HR) as (L & R & _). unfold finished in F. rewrite Forall_forall in F.
  assert (EL : forall q q', In q (ranks g) -> In q' (ranks g) -> length (entered q) = length (entered q')).
  { intros q q' I I'. destruct (lt_eq_lt_dec (length (entered q)) (length (entered q'))) as [[H|H]|H]; [|exact H|]; exfalso; apply NM.
    - exists q, q'. split; [exact I|]. split; [exact I'|]. right. auto.
    - exists q', q. split; [exact I'|]. split; [exact I|]. right. auto. }
  destruct (nth_ex (ranks g) 0) as (q0 & E0). { rewrite L. destruct ps; [congruence|cbn; lia]. }
  pose proof (nth_error_In _ _ E0) as I0.
  (* the operations *)
  set (hist := map (fun ix : nat * (coll * D) => (fst (snd ix), sends_at (fst ix) g)) (combine (seq 0 (length (entered q0))) (entered q0))).
  assert (NH : forall i, nth_error hist i = option_map (fun x : coll * D => (fst x, sends_at i g)) (nth_error (entered q0) i)).
  { intros i. unfold hist. rewrite nth_error_map.
    assert (X : forall (l : list (coll * D)) a i, nth_error (combine (seq a (length l)) l) i = option_map (fun x => (a + i, x)) (nth_error l i)).
    { clear. induction l as [|x l IH]; intros a [|i]; cbn; auto. { rewrite Nat.add_0_r. reflexivity. } rewrite IH. destruct (nth_error l i); cbn; [|reflexivity]. f_equal. f_equal. lia. }
    rewrite X. cbn [plus]. destruct (nth_error (entered q0) i); reflexivity. }
  exists hist. split.
  - apply Forall_forall. intros x Ix. apply In_nth_error in Ix. destruct Ix as (i & Ex). rewrite NH in Ex. destruct (nth_error (entered q0) i); [|discriminate].
    inversion Ex; subst x. cbn [snd]. rewrite sends_len. exact L.
  - intros r p Hp. destruct (nth_ex (ranks g) r) as (q & Eq). { apply nth_lt in Hp. lia. }
    pose proof (nth_error_In _ _ Eq) as Iq.
    destruct (R r p q Hp Eq) as (log & A & B & C & E & _). rewrite (F q Iq) in A.
    destruct (A [] [] 0 (F_done _)) as (m & A'). rewrite !app_nil_r in A'. exists m.
    assert (WQ : waiting q = false). { destruct (waiting q); [|reflexivity]. destruct (E eq_refl) as (h & c & s & k & E1 & _). rewrite (F q Iq) in E1. discriminate. }
    assert (LQ : left q = length (entered q)) by (unfold left; rewrite WQ; lia).
    rewrite LQ, firstn_all in B.
    assert (EQ : log = map (entry none gather reduce r) hist); [|rewrite EQ in A'; exact A'].
    assert (LL : length log = length (entered q0)) by (rewrite <- (map_length fst log), B; apply EL; assumption).
    apply list_ext. intros i. rewrite nth_error_map, NH. destruct (nth_error log i) as [[[c s] a]|] eqn:Ei.
    + assert (Bi : nth_error (entered q) i = Some (c, s)) by (rewrite <- B, nth_error_map, Ei; reflexivity).
      destruct (nth_ex (entered q0) i) as ([c0 s0] & Ei0). { apply nth_lt in Ei. lia. }
      rewrite Ei0. cbn [option_map fst]. unfold entry. cbn [fst snd].
      assert (c0 = c).
      { destruct (match c0, c with CBarrier, CBarrier | CFinalize, CFinalize => true | CBcast a, CBcast b | CAllgather a, CAllgather b | CReduce a, CReduce b => (a =? b)%Z | _, _ => false end) eqn:Z.
        - destruct c0, c; try discriminate; try reflexivity; apply Z.eqb_eq in Z; congruence.
        - exfalso. apply NM. exists q0, q. split; [exact I0|]. split; [exact Iq|]. left. exists i, (c0, s0), (c, s). split; [exact Ei0|]. split; [exact Bi|].
          cbn [fst]. intros <-. destruct c0; try discriminate; rewrite Z.eqb_refl in Z; discriminate. }
      subst c0. do 2 f_equal.
      * f_equal. pose proof (sends_nth i g r q Eq) as SN. rewrite Bi in SN. rewrite (nth_error_nth _ _ none SN). reflexivity.
      * destruct (C i c s a Ei) as (C1 & _). exact C1.
    + apply nth_error_None in Ei. destruct (nth_error (entered q0) i) eqn:Z; [|reflexivity]. apply nth_lt in Z. lia.
Qed.
End Run.
End Comm.
