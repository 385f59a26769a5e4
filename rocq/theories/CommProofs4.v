(* Processes which all make the same collective operations. *)
From Coq Require Import ZArith List Bool Arith Lia.
From Verif Require Import Base CommModel CommProofs CommProofs2.
Import ListNotations.
Local Open Scope list_scope.

Section Comm.
Context {D W : Type}.
Variables (none : D) (gather reduce : list D -> D).
Notation step := (@step D W none gather reduce).
Notation run := (@run D W none gather reduce).
Notation sys := (system D W).

(* the operations of a process on its way to the end; a process which fails makes less *)
Inductive makes : list coll -> proc D W -> Prop :=
| M_done : makes [] Done
| M_died cs f : makes cs (Died f)
| M_call c cs s k : (forall a, makes cs (k a)) -> makes (c :: cs) (Call c s k)
| M_write cs f p : makes cs p -> makes cs (Write f p)
| M_read cs k : makes cs (k []) -> makes cs (Read k).

Lemma makes_call cs c s k : makes cs (Call c s k) -> exists cs1, cs = c :: cs1 /\ forall a, makes cs1 (k a).
Proof. intros M. inversion M; subst. eauto. Qed.
Lemma makes_write cs f p : makes cs (Write f p) -> makes cs p.
Proof. intros M. inversion M; subst. assumption. Qed.
Lemma makes_read cs k : makes cs (Read k) -> makes cs (k []).
Proof. intros M. inversion M; subst. assumption. Qed.
Lemma makes_done cs : makes cs Done -> cs = [].
Proof. intros M. inversion M; subst. reflexivity. Qed.

Section Run.
Variables (d0 : nat) (ps : list (proc D W)) (cs : list coll).
Hypothesis TA : forall r p, nth_error ps r = Some p -> tame d0 (r =? 0) p.
Hypothesis NE : ps <> [].
Hypothesis MA : forall p, In p ps -> makes cs p.

(* the operations entered are the first ones of cs *)
Definition on_way (q : pstate D W) : Prop :=
  if waiting q then exists h c s k cs', entered q = h ++ [(c, s)] /\ code q = Call c s k /\ cs = map fst h ++ cs' /\ makes cs' (Call c s k)
  else exists cs', cs = map fst (entered q) ++ cs' /\ makes cs' (code q).
Lemma on_way_prefix q : on_way q -> exists t, cs = map fst (entered q) ++ t.
Proof.
  unfold on_way. destruct (waiting q).
  - intros (h & c & s & k & cs' & -> & _ & E & M). destruct (makes_call _ _ _ _ M) as (cs1 & -> & M1). exists cs1. rewrite map_app. cbn [map fst]. rewrite <- app_assoc. exact E.
  - intros (cs' & E & _). eauto.
Qed.
Lemma on_way_step g g' : inv2 none gather reduce d0 ps g -> Forall on_way (ranks g) -> step g g' -> Forall on_way (ranks g').
Proof.
  intros I F S. rewrite Forall_forall in F |- *. destruct S as [g r h c s k Hq|g r h x c s k Hq Hn|g r h f p Hq|g r h k Hq]; cbn [ranks with_rank]; intros q Iq;
    destruct (in_lset _ _ _ _ _ Hq Iq) as [->|Iq']; auto; pose proof (F _ (nth_error_In _ _ Hq)) as O; unfold on_way in O |- *; cbn [waiting entered code] in O |- *.
  - destruct O as (cs' & E & M). exists h, c, s, k, cs'. auto.
  - destruct O as (h' & c' & s' & k' & cs' & E1 & E2 & E & M). inversion E2; subst c' s' k'. apply app_inj_tail in E1. destruct E1 as (<- & ->). destruct (makes_call _ _ _ _ M) as (cs1 & -> & M1).
    exists cs1. split; [|apply M1]. rewrite map_app. cbn [map fst]. rewrite <- app_assoc. exact E.
  - destruct O as (cs' & E & M). apply makes_write in M. eauto.
  - destruct O as (cs' & E & M). apply makes_read in M. exists cs'. split; [exact E|].
    assert (WN : written g = []).
    { destruct I as (L & R & QW & _). destruct (written g) as [|f l] eqn:EW; [reflexivity|]. exfalso. assert (NN : f :: l <> []) by discriminate.
      specialize (QW NN _ (nth_error_In _ _ Hq)). cbn [entered] in QW. destruct (nth_ex ps r) as (p0 & Ep). { apply nth_lt in Hq. lia. }
      destruct (R r p0 _ Ep Hq) as (_ & _ & _ & _ & _ & T). unfold left in T. cbn [entered waiting code] in T. rewrite Nat.sub_0_r in T.
      replace (d0 - length h) with 0 in T by lia. inversion T. }
    rewrite WN. assumption.
Qed.
Lemma run_on_way n g : run n (start ps) g -> Forall on_way (ranks g).
Proof.
  intros H. remember (start ps) as g0 eqn:Eg. induction H as [g|n g g1 g2 H IH S].
  - subst. cbn [start ranks]. apply Forall_forall. intros q Iq. apply in_map_iff in Iq. destruct Iq as (p & <- & Ip). unfold on_way. cbn [waiting entered code map app]. exists cs. auto.
  - eapply on_way_step; [|apply IH; exact Eg|exact S]. rewrite Eg in H. eapply run_inv2; eauto.
Qed.
Theorem agree n g : run n (start ps) g -> ~ mismatch g.
Proof.
  intros H. pose proof (run_on_way n g H) as F. rewrite Forall_forall in F. intros (q & q' & Iq & Iq' & M).
  destruct (on_way_prefix q (F q Iq)) as (t & E), (on_way_prefix q' (F q' Iq')) as (t' & E'). destruct M as [(i & x & y & Hx & Hy & N)|(Dn & LT)].
  - apply N. assert (A : nth_error cs i = Some (fst x)). { rewrite E, nth_error_app1; [apply map_nth_error, Hx|]. rewrite map_length. eapply nth_lt; eauto. }
    assert (B : nth_error cs i = Some (fst y)). { rewrite E', nth_error_app1; [apply map_nth_error, Hy|]. rewrite map_length. eapply nth_lt; eauto. } congruence.
  - pose proof (F q Iq) as O. unfold on_way in O. destruct (waiting q).
    + destruct O as (h & c & s & k & cs' & _ & E2 & _). congruence.
    + destruct O as (cs' & E2 & M). rewrite Dn in M. apply makes_done in M. subst cs'. rewrite app_nil_r in E2. apply (f_equal (@length _)) in E2, E'. rewrite app_length, !map_length in E'. rewrite map_length in E2. lia.
Qed.
(* somebody can go on, unless a process has failed or all have returned *)
Theorem alive n g : run n (start ps) g -> (forall q f, In q (ranks g) -> code q <> Died f) -> finished g \/ exists g', step g g'.
Proof.
  intros H ND. pose proof (run_on_way n g H) as F. rewrite Forall_forall in F.
  assert (A : (forall q, In q (ranks g) -> code q = Done \/ waiting q = true) \/ exists g', step g g').
  { assert (G : forall l, (forall q, In q l -> In q (ranks g)) -> (forall q, In q l -> code q = Done \/ waiting q = true) \/ exists g', step g g').
    { induction l as [|q l IH]; intros S; [left; intros q []|]. destruct IH as [IH|IH]; [intros q' I; apply S; right; exact I| |right; exact IH].
      assert (Iq : In q (ranks g)) by (apply S; left; reflexivity). destruct (waiting q) eqn:Ew; [left; intros q' [<-|I]; auto|].
      apply In_nth_error in Iq. destruct Iq as (r & Er). destruct q as [h p w]. cbn [waiting] in Ew. subst w.
      destruct p as [|f|c s k|f p|k].
      - left. intros q' [<-|I]; auto.
      - exfalso. apply (ND _ f (nth_error_In _ _ Er)). reflexivity.
      - right. eexists. eapply S_enter; eauto.
      - right. eexists. eapply S_write; eauto.
      - right. eexists. eapply S_read; eauto. }
    apply (G (ranks g)). auto. }
  destruct A as [A|A]; [|right; exact A].
  (* the waiting process which has entered least *)
  assert (B : (forall q, In q (ranks g) -> waiting q = false) \/ exists q, In q (ranks g) /\ waiting q = true /\ forall q', In q' (ranks g) -> waiting q' = true -> length (entered q) <= length (entered q')).
  { generalize (ranks g). induction l as [|q l IH]; [left; intros q []|]. destruct IH as [IH|(q0 & I0 & W0 & M0)].
    - destruct (waiting q) eqn:Ew.
      + right. exists q. split; [left; reflexivity|]. split; [exact Ew|]. intros q' [<-|I] W'; [lia|]. rewrite (IH q' I) in W'. discriminate.
      + left. intros q' [<-|I]; auto.
    - right. destruct (waiting q) eqn:Ew.
      + destruct (le_lt_dec (length (entered q)) (length (entered q0))) as [LE|GT].
        * exists q. split; [left; reflexivity|]. split; [exact Ew|]. intros q' [<-|I] W'; [lia|]. specialize (M0 q' I W'). lia.
        * exists q0. split; [right; exact I0|]. split; [exact W0|]. intros q' [<-|I] W'; [lia|]. exact (M0 q' I W').
      + exists q0. split; [right; exact I0|]. split; [exact W0|]. intros q' [<-|I] W'; [congruence|]. exact (M0 q' I W'). }
  destruct B as [B|(q & Iq & W' & M)].
  - left. unfold finished. apply Forall_forall. intros q Iq. destruct (A q Iq) as [Aq|Aq]; [exact Aq|]. rewrite (B q Iq) in Aq. discriminate.
  - right. pose proof (F q Iq) as O. unfold on_way in O. rewrite W' in O. destruct O as (h & c & s & k & cs' & E1 & E2 & E3 & M3).
    pose proof Iq as Iq2. apply In_nth_error in Iq2. destruct Iq2 as (r & Er). destruct q as [hh p w]. cbn [entered code waiting] in *. subst hh p w.
    eexists. eapply S_leave; [exact Er|]. intros o q' Eo _. pose proof (nth_error_In _ _ Eo) as Io. destruct (A q' Io) as [Dq|Wq].
    + pose proof (F q' Io) as O'. unfold on_way in O'. destruct (waiting q'); [destruct O' as (h1 & c1 & s1 & k1 & cs1 & _ & Ex & _); congruence|].
      destruct O' as (cs1 & E4 & M4). rewrite Dq in M4. apply makes_done in M4. subst cs1. rewrite app_nil_r in E4. apply (f_equal (@length _)) in E3, E4. rewrite app_length, map_length in E3. rewrite map_length in E4. destruct (makes_call _ _ _ _ M3) as (cs2 & -> & _). cbn [length] in E3. lia.
    + specialize (M q' Io Wq). rewrite app_length in M. cbn [length] in M. lia.
Qed.
(* the operations of a process are among those of cs *)
Theorem entered_only n g q c : run n (start ps) g -> In q (ranks g) -> In c (map fst (entered q)) -> In c cs.
Proof.
  intros H Iq Ic. pose proof (run_on_way n g H) as F. rewrite Forall_forall in F. destruct (on_way_prefix q (F q Iq)) as (t & ->). apply in_or_app. left. exact Ic.
Qed.
End Run.
End Comm.
