(* Processes which agree in their collective operations: every order of their steps leads to the
   same end. *)
From Coq Require Import ZArith List Bool Arith Lia.
From Verif Require Import Base CommModel.
Import ListNotations.
Local Open Scope list_scope.

Lemma lset_len {A} (l : list A) : forall n a, length (lset l n a) = length l.
Proof. induction l as [|x l IH]; intros [|n] a; cbn; auto. Qed.
Lemma lset_same {A} (l : list A) : forall n a b, nth_error l n = Some b -> nth_error (lset l n a) n = Some a.
Proof. induction l as [|x l IH]; intros [|n] a b H; cbn in *; try discriminate; eauto. Qed.
Lemma lset_other {A} (l : list A) : forall n m a, n <> m -> nth_error (lset l n a) m = nth_error l m.
Proof. induction l as [|x l IH]; intros [|n] [|m] a H; cbn; auto; try lia. Qed.
Lemma lset_sum (l : list nat) : forall n m, nth_error l n = Some (S m) -> list_sum l = S (list_sum (lset l n m)).
Proof. 
  induction l as [|x l IH]; intros [|n] m H; cbn [lset nth_error] in *; try discriminate.
  - inversion H; subst. reflexivity.
  - change (x + list_sum l = S (x + list_sum (lset l n m))). rewrite (IH _ _ H). lia.
Qed.
Lemma sum_zero (l : list nat) : list_sum l = 0 <-> forall n m, nth_error l n = Some m -> m = 0.
Proof.
  split.
  - intros H. induction l as [|x l IH]; intros [|n] m E; cbn [nth_error] in *; try discriminate; change (x + list_sum l = 0) in H; [inversion E; lia|]. apply (IH ltac:(lia) _ _ E).
  - induction l as [|x l IH]; intros H; [reflexivity|]. change (x + list_sum l = 0). rewrite (H 0 x eq_refl). cbn [plus]. apply IH. intros n m E. exact (H (S n) m E).
Qed.
Lemma nth_lt {A} (l : list A) n a : nth_error l n = Some a -> n < length l.
Proof. intros H. apply nth_error_Some. congruence. Qed.
Lemma nth_ex {A} (l : list A) n : n < length l -> exists a, nth_error l n = Some a.
Proof. intros H. destruct (nth_error l n) eqn:E; [eauto|]. apply nth_error_None in E. lia. Qed.

(* ---- the operations of one process ---- *)
(* an operation which no process leaves before all have entered it *)
Definition full (c : coll) : bool := match c with CBarrier | CFinalize | CAllgather _ => true | _ => false end.

Section Comm.
Context {D W : Type}.
Variables (none : D) (gather reduce : list D -> D).
Notation delivers := (delivers none gather reduce).
Notation sends_at := (@sends_at D W none).
Notation step := (@step D W none gather reduce).
Notation run := (@run D W none gather reduce).
Notation sys := (system D W).

(* The process p, if the operations of the list l are answered as given, makes them and returns
   after m steps having written w.  Files are read only before the d-th of these
   operations, written only afterwards; the d-th one is a full one. *)
Inductive follows : nat -> proc D W -> list (coll * D * D) -> list W -> nat -> Prop :=
| F_done d : follows d Done [] [] 0
| F_call d c s k a l w m : (d = 1 -> full c = true) -> follows (pred d) (k a) l w m -> follows d (Call c s k) ((c, s, a) :: l) w (S (S m))
| F_write f p l w m : follows 0 p l w m -> follows 0 (Write f p) l (f :: w) (S m)
| F_read d k l w m : follows (S d) (k []) l w m -> follows (S d) (Read k) l w (S m).

Lemma follows_done d l w m : follows d Done l w m -> l = [] /\ w = [] /\ m = 0.
Proof. intros H. inversion H; auto. Qed.
Lemma follows_died d f l w m : ~ follows d (Died f) l w m.
Proof. intros H. inversion H. Qed.
Lemma follows_call d c s k l w m : follows d (Call c s k) l w m ->
  exists a l' m', l = (c, s, a) :: l' /\ m = S (S m') /\ (d = 1 -> full c = true) /\ follows (pred d) (k a) l' w m'.
Proof. intros H. inversion H; subst. do 3 eexists. repeat split; eauto. Qed.
Lemma follows_write d f p l w m : follows d (Write f p) l w m -> exists w' m', d = 0 /\ w = f :: w' /\ m = S m' /\ follows d p l w' m'.
Proof. intros H. inversion H; subst. do 2 eexists. repeat split; eauto. Qed.
Lemma follows_read d k l w m : follows d (Read k) l w m -> exists m', d <> 0 /\ m = S m' /\ follows d (k []) l w m'.
Proof. intros H. inversion H; subst. eexists. repeat split; eauto. Qed.

(* the i-th operation: which one, the buffers of all processes *)
Definition entry (r : nat) (x : coll * list D) : coll * D * D := (fst x, nth r (snd x) none, delivers (fst x) r (snd x)).
(* all processes together: only the first one writes *)
Definition follow_all (d : nat) (hist : list (coll * list D)) (ps : list (proc D W)) (w : list W) : Prop :=
  Forall (fun x => length (snd x) = length ps) hist /\
  forall r p, nth_error ps r = Some p -> exists m, follows d p (map (entry r) hist) (match r with O => w | S _ => [] end) m.
Definition sync (d : nat) (ps : list (proc D W)) (w : list W) : Prop := exists hist, follow_all d hist ps w.

Section Run.
Variables (d0 : nat) (hist : list (coll * list D)) (ps : list (proc D W)) (w : list W).
Hypothesis FA : follow_all d0 hist ps w.
Hypothesis NE : ps <> [].

Definition left (q : pstate D W) : nat := length (entered q) - (if waiting q then 1 else 0).
Definition call (r : nat) (x : coll * list D) : coll * D := (fst x, nth r (snd x) none).

(* m: steps still to be made *)
Definition rank_ok (r : nat) (q : pstate D W) (w' : list W) (m : nat) : Prop :=
  entered q = map (call r) (firstn (length (entered q)) hist) /\ length (entered q) <= length hist /\
  (waiting q = true -> 1 <= length (entered q) /\ exists c s k, code q = Call c s k) /\
  follows (d0 - left q) (code q) (map (entry r) (skipn (left q) hist)) w' (if waiting q then S m else m).
Definition inv (g : sys) (ms : list nat) : Prop :=
  length (ranks g) = length ps /\ length ms = length ps /\
  (exists w', w = written g ++ w' /\
    forall r q, nth_error (ranks g) r = Some q -> exists m, nth_error ms r = Some m /\ rank_ok r q (match r with O => w' | S _ => [] end) m) /\
  (written g <> [] -> forall q, In q (ranks g) -> d0 <= length (entered q)) /\
  (forall q q', In q (ranks g) -> In q' (ranks g) -> d0 <= left q -> d0 <= length (entered q')).

Lemma skip_nth i x : nth_error hist i = Some x -> skipn i hist = x :: skipn (S i) hist.
Proof. clear. revert i. induction hist as [|y l IH]; intros [|i] H; cbn in *; try discriminate; [congruence|]. apply IH, H. Qed.
Lemma first_nth i x : nth_error hist i = Some x -> firstn (S i) hist = firstn i hist ++ [x].
Proof. clear. revert i. induction hist as [|y l IH]; intros [|i] H; cbn in *; try discriminate; [congruence|]. f_equal. apply IH, H. Qed.

(* the buffers are those of the history *)
Lemma sends_hist g ms i x : inv g ms -> nth_error hist i = Some x ->
  (forall q, In q (ranks g) -> i < length (entered q)) -> sends_at i g = snd x.
Proof.
  intros (L1 & L2 & (w' & Ew & R) & _) Hx Q. unfold CommModel.sends_at.
  assert (LX : length (snd x) = length ps).
  { destruct FA as (F & _). rewrite Forall_forall in F. apply F. eapply nth_error_In; eauto. }
  apply nth_ext with (d := none) (d' := none); [rewrite map_length; lia|].
  intros r Hr. rewrite map_length in Hr. destruct (nth_ex _ _ Hr) as (q & Eq).
  rewrite (nth_indep _ none (match nth_error (entered q) i with Some (_, y) => y | None => none end)) by (rewrite map_length; exact Hr).
  rewrite (map_nth (fun q => match nth_error (entered q) i with Some (_, y) => y | None => none end) (ranks g) q r).
  rewrite (nth_error_nth _ _ q Eq). destruct (R r q Eq) as (m & _ & (E & L & _)).
  specialize (Q q (nth_error_In _ _ Eq)). rewrite E.
  assert (X : nth_error (firstn (length (entered q)) hist) i = Some x).
  { rewrite <- Hx. clear -Q. revert i Q. generalize (length (entered q)) as n. induction hist as [|y l IH]; intros [|n] [|i] Q; cbn; try lia; auto. apply IH. lia. }
  rewrite (map_nth_error (call r) _ _ X). reflexivity.
Qed.
(* what is needed of it *)
Lemma deliver_hist g ms r q i x : inv g ms -> nth_error hist i = Some x -> nth_error (ranks g) r = Some q ->
  (forall o q, nth_error (ranks g) o = Some q -> needs (fst x) r o = true -> i < length (entered q)) ->
  delivers (fst x) r (sends_at i g) = delivers (fst x) r (snd x).
Proof.
  intros I Hx Hq H.
  assert (Z : forall b, b = (fun o => needs (fst x) r o) -> (forall o, b o = true) -> sends_at i g = snd x).
  { intros b -> A. apply (sends_hist g ms i x I Hx). intros q' Iq. apply In_nth_error in Iq. destruct Iq as (o & Eo). apply (H o q' Eo (A o)). }
  destruct (fst x) as [| |n|n|n] eqn:EC; cbn [CommModel.delivers]; try reflexivity.
  - (* broadcast *)
    destruct (ranks g) as [|q0 l] eqn:ER. { destruct r; discriminate Hq. }
    assert (Q0 : i < length (entered q0)) by (apply (H 0 q0); reflexivity).
    destruct I as (L1 & L2 & (w' & Ew & R) & _). rewrite ER in *. destruct (R 0 q0 eq_refl) as (m & _ & (E & L & _)).
    unfold CommModel.sends_at. rewrite ER. cbn [map hd]. rewrite E.
    assert (X : nth_error (firstn (length (entered q0)) hist) i = Some x).
    { rewrite <- Hx. clear -Q0. revert i Q0. generalize (length (entered q0)) as n. induction hist as [|y l IH]; intros [|n] [|i] Q; cbn; try lia; auto. apply IH. lia. }
    rewrite (map_nth_error (call 0) _ _ X). cbn [call]. destruct (snd x); reflexivity.
  - rewrite (Z _ eq_refl); [reflexivity|]. intros o. reflexivity.
  - destruct r; [|reflexivity]. rewrite (Z _ eq_refl); [reflexivity|]. intros o. reflexivity.
Qed.

Lemma entered_hist g ms r q i y : inv g ms -> nth_error (ranks g) r = Some q -> nth_error (entered q) i = Some y ->
  exists x, nth_error hist i = Some x /\ y = call r x.
Proof.
  intros (L1 & L2 & (w' & Ew & R) & _) Hq Hy. destruct (R r q Hq) as (m & _ & (E & L & _)). rewrite E in Hy.
  destruct (nth_error hist i) as [x|] eqn:Ex.
  - exists x. split; [reflexivity|]. assert (B : i < length (entered q)).
    { apply nth_lt in Hy. rewrite map_length, firstn_length in Hy. lia. }
    assert (X : nth_error (firstn (length (entered q)) hist) i = Some x).
    { rewrite <- Ex. clear -B. revert i B. generalize (length (entered q)) as n. induction hist as [|z l IH]; intros [|n] [|i] Q; cbn; try lia; auto. apply IH. lia. }
    rewrite (map_nth_error (call r) _ _ X) in Hy. congruence.
  - exfalso. apply nth_lt in Hy. rewrite map_length, firstn_length in Hy. apply nth_error_None in Ex. lia.
Qed.

Lemma no_mismatch g ms : inv g ms -> ~ mismatch g.
Proof.
  intros I (q & q' & Iq & Iq' & [(i & x & y & Ex & Ey & N)|(C & L)]); apply In_nth_error in Iq, Iq'; destruct Iq as (r & Er), Iq' as (r' & Er').
  - destruct (entered_hist _ _ _ _ _ _ I Er Ex) as (z & Z1 & ->). destruct (entered_hist _ _ _ _ _ _ I Er' Ey) as (z' & Z2 & ->).
    apply N. cbn. congruence.
  - destruct I as (_ & _ & (w' & _ & R) & _). destruct (R r q Er) as (m & _ & (E & B & WT & F)). destruct (R r' q' Er') as (m' & _ & (E' & B' & _)).
    rewrite C in F. apply follows_done in F. destruct F as (El & _). apply map_eq_nil in El.
    assert (H : length (skipn (left q) hist) = 0) by (rewrite El; reflexivity). rewrite skipn_length in H. unfold left in H. destruct (waiting q); lia.
Qed.

Lemma in_lset {A} (l : list A) : forall r a b x, nth_error l r = Some a -> In x (lset l r b) -> x = b \/ In x l.
Proof. induction l as [|y l IH]; intros [|r] a b x E I; cbn in *; try discriminate; destruct I as [I|I]; auto. destruct (IH _ _ _ _ E I); auto. Qed.

Lemma cons_entry r y l c s a l' : (c, s, a) :: l' = entry r y :: l -> c = fst y /\ s = nth r (snd y) none /\ a = delivers (fst y) r (snd y) /\ l' = l.
Proof. unfold entry. intros H. inversion H; auto. Qed.

(* every step of a process makes one of the steps which remain *)
Lemma upd g ms r q q' m' w' : inv g ms -> nth_error (ranks g) r = Some q ->
  (forall r' q', r' <> r -> nth_error (ranks g) r' = Some q' -> exists m, nth_error ms r' = Some m /\ rank_ok r' q' (match r' with O => w' | S _ => [] end) m) ->
  rank_ok r q' (match r with O => w' | S _ => [] end) m' ->
  forall r2 q2, nth_error (lset (ranks g) r q') r2 = Some q2 -> exists m, nth_error (lset ms r m') r2 = Some m /\ rank_ok r2 q2 (match r2 with O => w' | S _ => [] end) m.
Proof.
  intros (L1 & L2 & _) Hq Ho Hr r2 q2 H2. destruct (Nat.eq_dec r r2) as [<-|N].
  - rewrite (lset_same _ _ _ _ Hq) in H2. inversion H2; subst q2. destruct (nth_ex ms r) as (m & Em). { apply nth_lt in Hq. lia. }
    exists m'. split; [eapply lset_same; eauto|exact Hr].
  - rewrite lset_other in H2 by exact N. rewrite lset_other by exact N. apply Ho; [congruence|exact H2].
Qed.

Lemma step_inv g ms g' : inv g ms -> step g g' -> exists ms', inv g' ms' /\ list_sum ms = S (list_sum ms').
Proof.
  intros I S. pose proof I as (L1 & L2 & (w' & Ew & R) & QW & QG). destruct S as [g r h c s k Hq|g r h x c s k Hq Hn|g r h f p Hq|g r h k Hq].
  - (* enter *)
    destruct (R _ _ Hq) as (m & Em & (E & L & WT & F)). unfold left in F. cbn [code waiting entered] in *. rewrite Nat.sub_0_r in F.
    apply follows_call in F. destruct F as (a & l' & m1 & El & -> & Fd & F).
    destruct (nth_error hist (length h)) as [y|] eqn:Ey.
    2:{ apply nth_error_None in Ey. rewrite skipn_all2 in El by exact Ey. discriminate. }
    rewrite (skip_nth _ _ Ey) in El. cbn [map] in El. symmetry in El. apply cons_entry in El. destruct El as (E1 & E2 & E3 & E4).
    exists (lset ms r (S m1)). split; [|apply lset_sum; exact Em].
    split; [cbn [ranks with_rank]; rewrite lset_len; exact L1|]. split; [rewrite lset_len; exact L2|]. split.
    + exists w'. split; [exact Ew|]. cbn [ranks with_rank]. apply (upd g ms r _ _ _ w' I Hq); [intros; apply R; assumption|].
      assert (LH : length (h ++ [(c, s)]) = S (length h)) by (rewrite app_length; cbn; lia).
      unfold rank_ok, left. cbn [entered code waiting]. rewrite LH. split; [|split; [|split; [intros _; split; [lia|eauto]|]]].
      * rewrite (first_nth _ _ Ey), map_app, <- E. unfold call at 1. cbn [map]. rewrite E1, E2. reflexivity.
      * apply nth_lt in Ey. lia.
      * replace (S (length h) - 1) with (length h) by lia. rewrite (skip_nth _ _ Ey). cbn [map]. unfold entry at 1. rewrite E1, E2 in *. constructor; [exact Fd|]. rewrite <- E3, <- E4. exact F.
    + cbn [written with_rank ranks]. split.
      * intros N q Iq. destruct (in_lset _ _ _ _ _ Hq Iq) as [->|Iq']; [|exact (QW N q Iq')]. cbn [entered]. rewrite app_length.
        specialize (QW N _ (nth_error_In _ _ Hq)). cbn [entered] in QW. lia.
      * intros q q2 Iq Iq2 B.
        assert (B' : forall q2, In q2 (ranks g) -> d0 <= length (entered q2)).
        { destruct (in_lset _ _ _ _ _ Hq Iq) as [->|Iq']; [|intros q3 I3; exact (QG q q3 Iq' I3 B)]. intros q3 I3. apply (QG _ q3 (nth_error_In _ _ Hq) I3).
          unfold left in *. cbn [entered waiting] in *. rewrite app_length in B. cbn [length] in B. lia. }
        destruct (in_lset _ _ _ _ _ Hq Iq2) as [->|Iq2']; [|exact (B' _ Iq2')]. cbn [entered]. rewrite app_length. specialize (B' _ (nth_error_In _ _ Hq)). cbn [entered] in B'. lia.
  - (* leave *)
    destruct (R _ _ Hq) as (m & Em & (E & L & WT & F)). unfold left in F. cbn [code waiting entered] in *.
    assert (LH : length (h ++ [x]) = S (length h)) by (rewrite app_length; cbn; lia). rewrite LH in *.
    replace (S (length h) - 1) with (length h) in F by lia.
    apply follows_call in F. destruct F as (a & l' & m1 & El & Hm & Fd & F). assert (Hm' : m = S m1) by lia. subst m. clear Hm.
    destruct (nth_error hist (length h)) as [y|] eqn:Ey.
    2:{ apply nth_error_None in Ey. rewrite skipn_all2 in El by exact Ey. discriminate. }
    rewrite (skip_nth _ _ Ey) in El. cbn [map] in El. symmetry in El. apply cons_entry in El. destruct El as (E1 & E2 & E3 & E4).
    exists (lset ms r m1). split; [|apply lset_sum; exact Em].
    split; [cbn [ranks with_rank]; rewrite lset_len; exact L1|]. split; [rewrite lset_len; exact L2|]. split.
    + exists w'. split; [exact Ew|]. cbn [ranks with_rank]. apply (upd g ms r _ _ _ w' I Hq); [intros; apply R; assumption|].
      unfold rank_ok, left. cbn [entered code waiting]. rewrite LH, Nat.sub_0_r. split; [exact E|]. split; [exact L|]. split; [discriminate|].
      rewrite E1 in Hn |- *. rewrite (deliver_hist g ms r _ _ _ I Ey Hq Hn). rewrite <- E3, <- E4.
      replace (d0 - S (length h)) with (pred (d0 - length h)) by lia. exact F.
    + cbn [written with_rank ranks]. split.
      * intros N q Iq. destruct (in_lset _ _ _ _ _ Hq Iq) as [->|Iq']; [|exact (QW N q Iq')]. cbn [entered].
        specialize (QW N _ (nth_error_In _ _ Hq)). cbn [entered] in QW. exact QW.
      * intros q q2 Iq Iq2 B.
        assert (B' : forall q2, In q2 (ranks g) -> d0 <= length (entered q2)).
        { destruct (in_lset _ _ _ _ _ Hq Iq) as [->|Iq']; [|intros q3 I3; exact (QG q q3 Iq' I3 B)]. intros q3 I3.
          unfold left in B. cbn [entered waiting] in B. rewrite LH, Nat.sub_0_r in B.
          destruct (le_lt_dec d0 (length h)) as [LE|GT].
          - apply (QG _ q3 (nth_error_In _ _ Hq) I3). unfold left. cbn [entered waiting]. rewrite LH. lia.
          - assert (FC : full c = true) by (apply Fd; lia). apply In_nth_error in I3. destruct I3 as (o & Eo).
            assert (NC : needs c r o = true) by (destruct c; try discriminate FC; reflexivity). specialize (Hn o q3 Eo NC). lia. }
        destruct (in_lset _ _ _ _ _ Hq Iq2) as [->|Iq2']; [|exact (B' _ Iq2')]. cbn [entered]. specialize (B' _ (nth_error_In _ _ Hq)). cbn [entered] in B'. exact B'.
  - (* write *)
    destruct (R _ _ Hq) as (m & Em & (E & L & WT & F)). unfold left in F. cbn [code waiting entered] in *. rewrite Nat.sub_0_r in F.
    apply follows_write in F. destruct F as (w1 & m1 & D0 & Ew1 & -> & F).
    destruct r as [|r]; [|discriminate Ew1]. subst w'.
    exists (lset ms 0 m1). split; [|apply lset_sum; exact Em].
    split; [cbn [ranks]; rewrite lset_len; exact L1|]. split; [rewrite lset_len; exact L2|]. split.
    + exists w1. cbn [written ranks]. split; [rewrite <- app_assoc; exact Ew|]. apply (upd g ms 0 _ _ _ w1 I Hq).
      * intros r' q' N H'. destruct r' as [|r']; [congruence|]. exact (R _ _ H').
      * unfold rank_ok, left. cbn [entered code waiting]. rewrite Nat.sub_0_r. split; [exact E|]. split; [exact L|]. split; [discriminate|exact F].
    + cbn [written ranks].
      assert (B' : forall q2, In q2 (ranks g) -> d0 <= length (entered q2)).
      { intros q2 I2. apply (QG _ q2 (nth_error_In _ _ Hq) I2). unfold left. cbn [entered waiting]. lia. }
      assert (B2 : forall q2, In q2 (lset (ranks g) 0 (PRC h p false)) -> d0 <= length (entered q2)).
      { intros q2 I2. destruct (in_lset _ _ _ _ _ Hq I2) as [->|I2']; [|exact (B' _ I2')]. cbn [entered]. lia. }
      split; intros; apply B2; assumption.
  - (* read *)
    destruct (R _ _ Hq) as (m & Em & (E & L & WT & F)). unfold left in F. cbn [code waiting entered] in *. rewrite Nat.sub_0_r in F.
    apply follows_read in F. destruct F as (m1 & D0 & -> & F).
    assert (WN : written g = []). { destruct (written g) as [|f l] eqn:EW; [reflexivity|]. exfalso. assert (NN : f :: l <> []) by discriminate.
      specialize (QW NN _ (nth_error_In _ _ Hq)). cbn [entered] in QW. lia. }
    exists (lset ms r m1). split; [|apply lset_sum; exact Em].
    split; [cbn [ranks with_rank]; rewrite lset_len; exact L1|]. split; [rewrite lset_len; exact L2|]. split.
    + exists w'. split; [exact Ew|]. cbn [ranks with_rank]. apply (upd g ms r _ _ _ w' I Hq); [intros; apply R; assumption|].
      unfold rank_ok, left. cbn [entered code waiting]. rewrite Nat.sub_0_r, WN. split; [exact E|]. split; [exact L|]. split; [discriminate|exact F].
    + cbn [written with_rank ranks]. split; [intros N; congruence|].
      intros q q2 Iq Iq2 B.
      assert (B' : forall q2, In q2 (ranks g) -> d0 <= length (entered q2)).
      { destruct (in_lset _ _ _ _ _ Hq Iq) as [->|Iq']; [|intros q3 I3; exact (QG q q3 Iq' I3 B)]. intros q3 I3. apply (QG _ q3 (nth_error_In _ _ Hq) I3).
        unfold left in *. cbn [entered waiting] in *. exact B. }
      destruct (in_lset _ _ _ _ _ Hq Iq2) as [->|Iq2']; [|exact (B' _ Iq2')]. cbn [entered]. specialize (B' _ (nth_error_In _ _ Hq)). exact B'.
Qed.

Lemma start_inv : exists ms, inv (start ps) ms.
Proof.
  destruct FA as (HL & HF).
  assert (X : forall l k, (forall r p, nth_error l r = Some p -> exists m, follows d0 p (map (entry (k + r)) hist) (match k + r with O => w | S _ => [] end) m) ->
    exists ms, length ms = length l /\ forall r p, nth_error l r = Some p -> exists m, nth_error ms r = Some m /\
      follows d0 p (map (entry (k + r)) hist) (match k + r with O => w | S _ => [] end) m).
  { induction l as [|p l IH]; intros k H; [exists []; split; [reflexivity|]; intros [|r] p E; discriminate|].
    destruct (IH (S k)) as (ms & L & M). { intros r q E. destruct (H (S r) q E) as (m & F). exists m. replace (S k + r) with (k + S r) by lia. exact F. }
    destruct (H 0 p eq_refl) as (m & F). exists (m :: ms). split; [cbn; lia|]. intros [|r] q E; cbn [nth_error] in *.
    - inversion E; subst q. exists m. split; [reflexivity|exact F].
    - destruct (M r q E) as (m' & E' & F'). exists m'. split; [exact E'|]. replace (k + S r) with (S k + r) by lia. exact F'. }
  destruct (X ps 0 HF) as (ms & L & M). exists ms. split; [cbn [start ranks]; apply map_length|]. split; [exact L|]. split.
  - exists w. split; [reflexivity|]. cbn [start ranks]. intros r q E. rewrite nth_error_map in E. destruct (nth_error ps r) as [p|] eqn:Ep; [|discriminate].
    inversion E; subst q. destruct (M r p Ep) as (m & Em & F). exists m. split; [exact Em|]. unfold rank_ok, left. cbn [entered code waiting length map firstn].
    split; [reflexivity|]. split; [lia|]. split; [discriminate|]. rewrite Nat.sub_0_r. exact F.
  - cbn [start written ranks]. split; [congruence|]. intros q q' Iq Iq' B. apply in_map_iff in Iq, Iq'. destruct Iq as (p & <- & _), Iq' as (p' & <- & _).
    unfold left in B. cbn in B. cbn. lia.
Qed.

(* the process which has left the fewest operations, or one which has to enter it, can go on *)
Lemma rank_steps g ms r q m : inv g ms -> nth_error (ranks g) r = Some q -> nth_error ms r = Some m -> waiting q = false ->
  (m = 0 /\ code q = Done /\ left q = length hist) \/ exists g', step g g'.
Proof.
  intros I Hq Hm Wq. pose proof I as (L1 & L2 & (w' & Ew & R) & _). destruct (R _ _ Hq) as (m' & Em & (E & L & WT & F)). rewrite Hm in Em. inversion Em; subst m'.
  destruct q as [h c wt]. cbn [waiting] in Wq. subst wt. cbn [code waiting entered] in *. destruct c as [|f|c s k|f p|k].
  - left. apply follows_done in F. destruct F as (El & _ & ->). split; [reflexivity|]. split; [reflexivity|]. apply map_eq_nil in El.
    assert (H : length (skipn (left (PRC h Done false)) hist) = 0) by (rewrite El; reflexivity). rewrite skipn_length in H.
    unfold left in *. cbn [entered waiting] in *. lia.
  - exfalso. eapply follows_died; eauto.
  - right. eexists. eapply S_enter. exact Hq.
  - right. eexists. eapply S_write. exact Hq.
  - right. eexists. eapply S_read. exact Hq.
Qed.
Lemma min_rank (l : list (pstate D W)) : l <> [] -> exists r q, nth_error l r = Some q /\ forall q', In q' l -> left q <= left q'.
Proof.
  induction l as [|a l IH]; intros H; [congruence|]. destruct l as [|b l].
  - exists 0, a. split; [reflexivity|]. intros q' [<-|[]]. lia.
  - destruct IH as (r & q & E & M); [discriminate|]. destruct (le_lt_dec (left a) (left q)) as [A|A].
    + exists 0, a. split; [reflexivity|]. intros q' [<-|I]; [lia|]. specialize (M q' I). lia.
    + exists (S r), q. split; [exact E|]. intros q' [<-|I]; [lia|]. apply M, I.
Qed.

Lemma progress g ms : inv g ms -> (list_sum ms = 0 /\ finished g) \/ exists g', step g g'.
Proof.
  intros I. pose proof I as (L1 & L2 & (w' & Ew & R) & _).
  destruct (min_rank (ranks g)) as (r & q & Eq & M). { intros X. rewrite X in L1. destruct ps; [congruence|discriminate]. }
  destruct (R _ _ Eq) as (m & Em & (E & L & WT & F)).
  destruct (waiting q) eqn:Wq.
  - (* the operation it has entered *)
    right. destruct q as [h0 c0 wt]. cbn [waiting] in Wq. subst wt. cbn [code waiting entered] in *. destruct (WT eq_refl) as (WT' & c & s & k & EC). rename WT' into WT1. subst c0.
    destruct (exists_last (l := h0)) as (h & x & ->). { intros ->. cbn in WT1. lia. }
    assert (LH : length (h ++ [x]) = S (length h)) by (rewrite app_length; cbn; lia).
    assert (LE : left (PRC (h ++ [x]) (Call c s k) true) = length h) by (unfold left; cbn [entered waiting]; lia).
    (* have all others entered it? *)
      assert (X : (forall q', In q' (ranks g) -> length h < length (entered q')) \/ exists r' q', nth_error (ranks g) r' = Some q' /\ length (entered q') <= length h).
      { clear. induction (ranks g) as [|a l IH]; [left; intros q' []|]. destruct IH as [IH|(r' & q' & E & B)].
        - destruct (le_lt_dec (length (entered a)) (length h)) as [B|B].
          + right. exists 0, a. auto.
          + left. intros q' [<-|I]; auto.
        - right. exists (S r'), q'. auto. }
      destruct X as [X|(r' & q' & E' & B)].
      * eexists. eapply S_leave; [exact Eq|]. intros o q' Eo _. apply X. eapply nth_error_In; eauto.
      * assert (W' : waiting q' = false).
        { destruct (R _ _ E') as (m' & _ & (_ & _ & WT' & _)). destruct (waiting q') eqn:Z; [|reflexivity]. destruct (WT' eq_refl) as (WT2 & _).
          specialize (M q' (nth_error_In _ _ E')). rewrite LE in M. unfold left in M. rewrite Z in M. lia. }
        destruct (R _ _ E') as (m' & Em' & _).
        destruct (rank_steps g ms r' q' m' I E' Em' W') as [(_ & _ & Z)|Z]; [|exact Z]. exfalso.
        unfold left in Z. rewrite W' in Z. lia.
  - destruct (rank_steps g ms r q m I Eq Em Wq) as [(Hm & Hc & Hl)|X]; [|right; exact X].
    (* all operations are over *)
    assert (A : forall r' q' m', nth_error (ranks g) r' = Some q' -> nth_error ms r' = Some m' -> (m' = 0 /\ code q' = Done) \/ exists g', step g g').
    { intros r' q' m' E' Em'. assert (W' : waiting q' = false).
      { destruct (R _ _ E') as (m2 & _ & (_ & L' & WT' & _)). destruct (waiting q') eqn:Z; [|reflexivity]. destruct (WT' eq_refl) as (B & _).
        specialize (M q' (nth_error_In _ _ E')). rewrite Hl in M. unfold left in M. rewrite Z in M. lia. }
      destruct (rank_steps g ms r' q' m' I E' Em' W') as [(B1 & B2 & _)|B]; auto. }
    assert (X : (forall r' q', nth_error (ranks g) r' = Some q' -> nth_error ms r' = Some 0 /\ code q' = Done) \/ exists g', step g g').
    { assert (Y : forall n, (forall r' q', r' < n -> nth_error (ranks g) r' = Some q' -> nth_error ms r' = Some 0 /\ code q' = Done) \/ exists g', step g g').
      { induction n as [|n IH]; [left; intros; lia|]. destruct IH as [IH|IH]; [|right; exact IH].
        destruct (nth_error (ranks g) n) as [qn|] eqn:En.
        - destruct (R _ _ En) as (mn & Emn & _). destruct (A n qn mn En Emn) as [(B1 & B2)|B]; [|right; exact B]. subst mn.
          left. intros r' q' Hr E'. destruct (Nat.eq_dec r' n) as [->|N]; [|apply IH; [lia|exact E']]. rewrite En in E'. inversion E'; subst. auto.
        - left. intros r' q' Hr E'. destruct (Nat.eq_dec r' n) as [->|N]; [congruence|]. apply IH; [lia|exact E']. }
      destruct (Y (length (ranks g))) as [Z|Z]; [|right; exact Z]. left. intros r' q' E'. apply Z; [|exact E']. eapply nth_lt; eauto. }
    destruct X as [X|X]; [|right; exact X]. left. split.
    + apply sum_zero. intros n m' E'. destruct (nth_ex (ranks g) n) as (q' & Eq'). { apply nth_lt in E'. lia. }
      destruct (X n q' Eq') as (B & _). congruence.
    + apply Forall_forall. intros q' I'. apply In_nth_error in I'. destruct I' as (n & En). apply (X n q' En).
Qed.

Lemma finished_sum g ms : inv g ms -> finished g -> list_sum ms = 0 /\ written g = w.
Proof.
  intros (L1 & L2 & (w' & Ew & R) & _) F. unfold finished in F. rewrite Forall_forall in F.
  assert (Z : forall r q, nth_error (ranks g) r = Some q -> nth_error ms r = Some 0 /\ (match r with O => w' | S _ => [] end) = []).
  { intros r q E. destruct (R r q E) as (m & Em & (_ & _ & _ & H)). rewrite (F q (nth_error_In _ _ E)) in H. apply follows_done in H.
    destruct H as (_ & H1 & H2). destruct (waiting q); [discriminate|]. subst m. auto. }
  split.
  - apply sum_zero. intros n m' E'. destruct (nth_ex (ranks g) n) as (q' & Eq'). { apply nth_lt in E'. lia. } destruct (Z n q' Eq') as (B & _). congruence.
  - destruct (nth_ex (ranks g) 0) as (q & E). { rewrite L1. destruct ps; [congruence|cbn; lia]. } destruct (Z 0 q E) as (_ & B). cbn in B. subst w'. rewrite app_nil_r in Ew. congruence.
Qed.

Theorem all_runs : exists N, forall n g, run n (start ps) g ->
  ~ mismatch g /\ n <= N /\ (finished g <-> n = N) /\ (finished g -> written g = w) /\ (~ finished g -> exists g', step g g').
Proof.
  destruct start_inv as (ms0 & I0). exists (list_sum ms0). intros n g H.
  assert (X : exists ms, inv g ms /\ list_sum ms0 = n + list_sum ms).
  { remember (start ps) as g0 eqn:Eg. induction H as [g|n g g1 g2 H IH S]; subst; [exists ms0; auto|].
    destruct (IH eq_refl I0) as (ms & I & E). destruct (step_inv _ _ _ I S) as (ms' & I' & E'). exists ms'. split; [exact I'|lia]. }
  destruct X as (ms & I & E). split; [eapply no_mismatch; eauto|]. split; [lia|]. split; [|split].
  - split; intros F.
    + apply (finished_sum _ _ I) in F. lia.
    + destruct (progress _ _ I) as [(_ & P)|(g' & S)]; [exact P|]. destruct (step_inv _ _ _ I S) as (ms' & _ & E'). lia.
  - intros F. apply (finished_sum _ _ I F).
  - intros F. destruct (progress _ _ I) as [(_ & P)|P]; [contradiction|exact P].
Qed.
End Run.
End Comm.
