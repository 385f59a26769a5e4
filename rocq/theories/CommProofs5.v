(* Every run of the processes ends: a process is a well-founded tree, every step takes one
   of the processes one level down (or into the operation at the top). *)
From Coq Require Import List Arith Lia Bool.
From Verif Require Import Base CommModel.
Import ListNotations.

Section Ends.
Context {D W : Type}.
Variables (none : D) (gather reduce : list D -> D).
Notation pst := (pstate D W).

(* one process, whatever the others and the files are *)
Inductive below : pst -> pst -> Prop :=
| B_enter h h' c s k : below (PRC h' (Call c s k) true) (PRC h (Call c s k) false)
| B_leave h h' c s k d : below (PRC h' (k d) false) (PRC h (Call c s k) true)
| B_write h h' f p : below (PRC h' p false) (PRC h (Write f p) false)
| B_read h h' k w : below (PRC h' (k w) false) (PRC h (Read k) false).
Lemma below_acc (p : proc D W) : (forall h, Acc below (PRC h p false)) /\ (forall h, Acc below (PRC h p true)).
Proof.
  induction p as [|f|c s k IH|f p IH|k IH].
  - split; intros h; constructor; intros y H; inversion H.
  - split; intros h; constructor; intros y H; inversion H.
  - assert (A : forall h, Acc below (PRC h (Call c s k) true)) by (intros h; constructor; intros y H; inversion H; subst; apply IH).
    split; [|exact A]. intros h. constructor. intros y H. inversion H; subst. apply A.
  - split; intros h; constructor; intros y H; inversion H; subst. apply IH.
  - split; intros h; constructor; intros y H; inversion H; subst. apply IH.
Qed.
Lemma below_wf (q : pst) : Acc below q.
Proof. destruct q as [h p [|]]; apply below_acc. Qed.

(* one of the list *)
Inductive one_below : list pst -> list pst -> Prop :=
| O_here a b l : below a b -> one_below (a :: l) (b :: l)
| O_there a l l' : one_below l l' -> one_below (a :: l) (a :: l').
Lemma one_below_acc l : Acc one_below l.
Proof.
  induction l as [|a l IH]; [constructor; intros y H; inversion H|].
  revert a. induction IH as [l _ IHl]. intros a. induction (below_wf a) as [a _ IHa].
  constructor. intros y H. inversion H as [b c l' Hb|b l1 l2 Hl]; subst.
  - apply IHa. exact Hb.
  - apply IHl. exact Hl.
Qed.
Lemma lset_below (l : list pst) r q q' : nth_error l r = Some q -> below q' q -> one_below (lset l r q') l.
Proof.
  revert r. induction l as [|a l IH]; intros [|r] E B; [discriminate..| |].
  - cbn in E. injection E as ->. cbn. constructor. exact B.
  - cbn in E |- *. constructor. apply IH; assumption.
Qed.
Notation step := (@step D W none gather reduce).
Lemma step_below g g' : step g g' -> one_below (ranks g') (ranks g).
Proof.
  intros S. destruct S as [g r h c s k E|g r h x c s k E N|g r h f p E|g r h k E]; cbn [ranks with_rank]; (eapply lset_below; [exact E|]); constructor.
Qed.
Lemma no_infinite_run (f : nat -> system D W) : ~ (forall n, step (f n) (f (S n))).
Proof.
  intros H. remember (ranks (f 0)) as l eqn:E. assert (A := one_below_acc l). revert f H E. induction A as [l _ IH]. intros f H ->.
  apply (IH (ranks (f 1)) (step_below _ _ (H 0)) (fun n => f (S n))); [intros n; apply H|reflexivity].
Qed.
(* every state leads to one which has no next step *)
Lemma step_acc g : Acc (fun b a => step a b) g.
Proof.
  remember (ranks g) as l eqn:E. assert (A := one_below_acc l). revert g E. induction A as [l _ IH]. intros g ->. constructor. intros g' S. apply (IH (ranks g') (step_below _ _ S) g' eq_refl).
Qed.
End Ends.
