(* The heap operations of MemModel.v one by one, and the particles copied by a node. *)
From Coq Require Import List Bool Arith Lia.
From Verif Require Import Base MemModel.
Import ListNotations.

Definition lives (a : nat) (h : heap) : Prop := exists c, In c (h_live h) /\ c_addr c = a.

Lemma lives_existsb a h : existsb (fun c => c_addr c =? a) (h_live h) = true <-> lives a h.
Proof.
  rewrite existsb_exists. unfold lives. split; intros (c & H1 & H2); exists c; split; auto.
  - apply Nat.eqb_eq. exact H2.
  - apply Nat.eqb_eq. exact H2.
Qed.
Lemma use_live a h : lives a h -> muse a h = Ok (tt, h).
Proof. intros H. apply lives_existsb in H. unfold muse. rewrite H. reflexivity. Qed.
Lemma use_dead a h : ~ lives a h -> muse a h = UB.
Proof. intros H. unfold muse. destruct (existsb _ _) eqn:E; [|reflexivity]. apply lives_existsb in E. contradiction. Qed.
Lemma del_dead s f a h : ~ lives a h -> mdel s f a h = UB.
Proof.
  intros H. unfold mdel. destruct (find _ _) eqn:E; [|reflexivity]. apply find_some in E. destruct E as [E1 E2].
  exfalso. apply H. exists c. split; [exact E1|]. apply Nat.eqb_eq. exact E2.
Qed.
Lemma del_live s f a h : lives a h -> (s = true -> forall c, In c (h_live h) -> c_addr c = a -> c_form c = f) ->
  exists h', mdel s f a h = Ok (tt, h') /\ h_next h' = h_next h /\ ~ lives a h' /\
    forall c, In c (h_live h') <-> In c (h_live h) /\ c_addr c <> a.
Proof.
  intros (c & Hc & Ha) HF. unfold mdel. destruct (find _ _) eqn:E.
  - apply find_some in E. destruct E as [E1 E2]. apply Nat.eqb_eq in E2.
    assert (B : s && negb (form_eqb f (c_form c0)) = false).
    { destruct s; [|reflexivity]. rewrite (HF eq_refl c0 E1 E2). destruct f; reflexivity. }
    rewrite B. eexists. split; [reflexivity|]. split; [reflexivity|]. cbn [h_live].
    assert (K : forall c1, In c1 (filter (fun c => negb (c_addr c =? a)) (h_live h)) <-> In c1 (h_live h) /\ c_addr c1 <> a).
    { intros c1. rewrite filter_In. rewrite negb_true_iff, Nat.eqb_neq. reflexivity. }
    split; [|exact K]. intros (c1 & I1 & I2). cbn [h_live] in I1. apply K in I1. tauto.
  - exfalso. apply (find_none _ _ E) in Hc. apply Nat.eqb_neq in Hc. contradiction.
Qed.
Lemma del_wrong_form f a h : lives a h -> (forall c, In c (h_live h) -> c_addr c = a -> c_form c <> f) -> mdel true f a h = UB.
Proof.
  intros _ HF. unfold mdel. destruct (find _ _) eqn:E; [|reflexivity]. apply find_some in E. destruct E as [E1 E2]. apply Nat.eqb_eq in E2.
  specialize (HF c E1 E2). destruct f, (c_form c); try congruence; reflexivity.
Qed.
Lemma new_live f k h : exists a h', mnew f k h = Ok (a, h') /\ a = h_next h /\ h_next h' = S a /\ h_live h' = Cell a f k :: h_live h.
Proof. do 2 eexists. split; [reflexivity|]. repeat split. Qed.

(* ---- the copies ---- *)
Lemma distribute_length rank chunk ps : 0 < chunk -> forall node cnt h qs h', cnt < chunk ->
  distribute rank chunk node cnt ps h = Ok (qs, h') ->
  length qs = length (filter (fun i => i / chunk =? rank) (seq (node * chunk + cnt) (length ps))).
Proof.
  intros HC. induction ps as [|p ps IH]; intros node cnt h qs h' Hc H; cbn [distribute] in H.
  - unfold mret in H. injection H as <- _. reflexivity.
  - unfold mbind in H at 1. destruct (muse p h) as [[u h1]| | |]; try discriminate H. cbn [bind fst snd] in H.
    unfold mbind in H at 1.
    assert (D : (node * chunk + cnt) / chunk = node).
    { rewrite Nat.add_comm, Nat.div_add by lia. rewrite Nat.div_small by lia. reflexivity. }
    set (q := if rank =? node then _ else _) in H.
    assert (Q : exists l h2, q h1 = Ok (l, h2) /\ length l = if rank =? node then 1 else 0).
    { unfold q. destruct (rank =? node); do 2 eexists; split; reflexivity. }
    destruct Q as (l & h2 & Eq & Hl). rewrite Eq in H. cbn [bind fst snd] in H. unfold mbind in H.
    cbn [length seq filter]. rewrite D, (Nat.eqb_sym node rank).
    set (tail := if S cnt =? chunk then _ else _) in H.
    destruct (tail h2) as [[qs' h3]| | |] eqn:E; try discriminate H. cbn [bind fst snd] in H. unfold mret in H. injection H as <- _.
    assert (L : length qs' = length (filter (fun i => i / chunk =? rank) (seq (S (node * chunk + cnt)) (length ps)))).
    { unfold tail in E. destruct (S cnt =? chunk) eqn:S1.
      - apply Nat.eqb_eq in S1. apply IH in E; [|lia]. rewrite E. f_equal. f_equal. f_equal. lia.
      - apply Nat.eqb_neq in S1. apply IH in E; [|lia]. rewrite E. f_equal. f_equal. f_equal. lia. }
    rewrite app_length, Hl, L. destruct (rank =? node); reflexivity.
Qed.
