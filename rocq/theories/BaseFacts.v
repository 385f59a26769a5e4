(* Facts about the list access primitives of Base.v *)
From Coq Require Import ZArith List Lia Bool.
From Verif Require Import Base.
Import ListNotations.

Lemma lback_app {A} (l : list A) (a : A) : lback (l ++ [a]) = Ok a.
Proof.
  induction l as [|x r IH]; [reflexivity|].
  cbn [app]. destruct (r ++ [a]) eqn:E; [destruct r; discriminate|].
  cbn. exact IH.
Qed.
Lemma lback_ok {A} (l : list A) : l <> [] -> exists i a, l = i ++ [a] /\ lback l = Ok a.
Proof.
  intros H. destruct (exists_last H) as [i [a Ha]]. exists i, a. split; [exact Ha|].
  rewrite Ha. apply lback_app.
Qed.
Lemma lback_inv {A} (l : list A) (a : A) : lback l = Ok a -> exists i, l = i ++ [a].
Proof.
  intros H. destruct l as [|x r]; [discriminate|].
  destruct (@lback_ok A (x :: r)) as [i [b [Hi Hb]]]; [discriminate|].
  rewrite H in Hb. injection Hb as <-. exists i. exact Hi.
Qed.
Lemma lback_nil_iff {A} (l : list A) : lback l = UB <-> l = [].
Proof.
  split; [|intros ->; reflexivity].
  intros H. destruct l; [reflexivity|].
  destruct (@lback_ok A (a :: l)) as [i [b [_ Hb]]]; [discriminate|]. congruence.
Qed.
Lemma zget_ok {A} (l : list A) (i : Z) :
  (0 <= i < Z.of_nat (length l))%Z -> exists a, zget l i = Ok a /\ nth_error l (Z.to_nat i) = Some a.
Proof.
  intros H. unfold zget. destruct (Z.ltb_spec i 0); [lia|].
  destruct (nth_error l (Z.to_nat i)) as [a|] eqn:E; [exists a; auto|].
  apply nth_error_None in E. lia.
Qed.
Lemma zget_nth {A} (l : list A) (n : nat) (a : A) :
  nth_error l n = Some a -> zget l (Z.of_nat n) = Ok a.
Proof.
  intros H. unfold zget. destruct (Z.ltb_spec (Z.of_nat n) 0); [lia|].
  rewrite Nat2Z.id, H. reflexivity.
Qed.
Lemma zget_inv {A} (l : list A) (i : Z) (a : A) :
  zget l i = Ok a -> (0 <= i < Z.of_nat (length l))%Z /\ nth_error l (Z.to_nat i) = Some a.
Proof.
  unfold zget. destruct (Z.ltb_spec i 0); [discriminate|].
  destruct (nth_error l (Z.to_nat i)) as [b|] eqn:E; [|discriminate].
  intros H0. injection H0 as <-. split; [|reflexivity].
  assert (Z.to_nat i < length l)%nat by (apply nth_error_Some; congruence). lia.
Qed.
Lemma bind_ok {A B} (m : res A) (f : A -> res B) (b : B) :
  bind m f = Ok b -> exists a, m = Ok a /\ f a = Ok b.
Proof. destruct m; cbn; intros H; try discriminate. exists a; auto. Qed.
Lemma iter_res_S_r {A} (f : A -> res A) (n : nat) (a : A) :
  iter_res f (S n) a = bind (iter_res f n a) f.
Proof.
  revert a; induction n as [|n IH]; intros a.
  - cbn. destruct (f a); reflexivity.
  - change (iter_res f (S (S n)) a) with (bind (f a) (iter_res f (S n))).
    change (iter_res f (S n) a) with (bind (f a) (iter_res f n)).
    destruct (f a) as [b| | |]; cbn [bind]; try reflexivity. apply IH.
Qed.
Lemma iter_res_plus {A} (f : A -> res A) (n m : nat) (a : A) :
  iter_res f (n + m) a = bind (iter_res f n a) (iter_res f m).
Proof.
  revert a; induction n as [|n IH]; intros a; [reflexivity|].
  cbn [Nat.add iter_res]. destruct (f a) as [b| | |]; cbn [bind]; try reflexivity. apply IH.
Qed.
Lemma lset_length {A} (l : list A) (n : nat) (a : A) : length (lset l n a) = length l.
Proof. revert n; induction l as [|x r IH]; intros [|n]; cbn; auto. Qed.
Lemma lset_nth_eq {A} (l : list A) (n : nat) (a : A) :
  (n < length l)%nat -> nth_error (lset l n a) n = Some a.
Proof. revert n; induction l as [|x r IH]; intros [|n]; cbn; intros H; try lia; auto; apply IH; lia. Qed.
Lemma lset_nth_neq {A} (l : list A) (n m : nat) (a : A) :
  n <> m -> nth_error (lset l n a) m = nth_error l m.
Proof.
  revert n m; induction l as [|x r IH]; intros [|n] [|m] H; cbn; auto; try lia; try (apply IH; lia).
Qed.

(* step through a chain of binds in a hypothesis *)
Ltac bstep H :=
  match type of H with
  | bind ?m _ = Ok _ =>
      let a := fresh "a" in let Ha := fresh "Ha" in
      apply bind_ok in H; destruct H as [a [Ha H]]
  end.

Lemma nth_error_combine_ext {A} (l l' : list A) :
  (forall n, nth_error l n = nth_error l' n) -> l = l'.
Proof.
  revert l'; induction l as [|x r IH]; intros [|y r'] H; auto.
  - specialize (H 0%nat); discriminate.
  - specialize (H 0%nat); discriminate.
  - pose proof (H 0%nat) as H0. injection H0 as ->. f_equal. apply IH. intros n. apply (H (S n)).
Qed.

Tactic Notation "bget" hyp(H) "as" ident(x) ident(Hx) :=
  apply bind_ok in H; destruct H as [x [Hx H]].

Lemma Ok_inj {A} (a b : A) : Ok a = Ok b -> a = b.
Proof. intros H; injection H; auto. Qed.
(* like injection, but does not simplify the terms *)
Ltac okinj H :=
  apply Ok_inj in H; match type of H with ?a = ?b => first [subst b | subst a | idtac] end.
