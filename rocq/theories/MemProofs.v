(* Proofs about the life of the heap objects (MemModel.v), in the style of
   separation logic: [hspec pre m Q post] says that m, run on any heap whose live
   objects are [pre] and some other objects, ends without undefined behaviour,
   touches only [pre] and leaves [post] in its place. *)
From Coq Require Import List Bool Arith Lia Permutation.
From Verif Require Import Base MemModel.
Import ListNotations.
Local Open Scope mem_scope.

Definition cell_dec (a b : cell) : {a = b} + {a <> b}.
Proof. decide equality; [decide equality|decide equality|apply Nat.eq_dec]. Defined.

Notation cnt := (count_occ cell_dec).

Lemma perm_cnt (l1 l2 : list cell) : Permutation l1 l2 <-> forall c, cnt l1 c = cnt l2 c.
Proof. apply Permutation_count_occ. Qed.
Lemma cnt_cons x l c : cnt (x :: l) c = cnt [x] c + cnt l c.
Proof. change (x :: l) with ([x] ++ l). apply count_occ_app. Qed.

Ltac cnt_norm :=
  repeat match goal with
  | |- context [count_occ cell_dec (?a ++ ?b) ?c] => rewrite (count_occ_app cell_dec a b c)
  | |- context [count_occ cell_dec (?x :: ?y :: ?l) ?c] => rewrite (cnt_cons x (y :: l) c)
  | |- context [count_occ cell_dec (?x :: ?l) ?c] =>
      lazymatch l with [] => fail | _ => rewrite (cnt_cons x l c) end
  | |- context [count_occ cell_dec [] ?c] => change (count_occ cell_dec [] c) with 0
  end.
Ltac perm :=
  match goal with |- Permutation _ _ => idtac end;
  let c := fresh "c" in
  apply perm_cnt; intro c;
  repeat match goal with
  | H : Permutation ?a ?b |- _ =>
      let H' := fresh "P" in
      pose proof (proj1 (perm_cnt a b) H c) as H'; clear H; revert H'
  end;
  cnt_norm; intros; lia.

Definition addrs (l : list cell) : list nat := map c_addr l.
Definition wf (h : heap) : Prop := NoDup (addrs (h_live h)) /\ Forall (fun a => a < h_next h) (addrs (h_live h)).

Section Proofs.
Variable strict : bool.
Notation mdel := (mdel strict).

Definition hspec {A} (pre : list cell) (m : mem A) (Q : A -> Prop) (post : A -> list cell) : Prop :=
  forall h F, wf h -> Permutation (h_live h) (pre ++ F) ->
  exists a h', m h = Ok (a, h') /\ wf h' /\ Q a /\ Permutation (h_live h') (post a ++ F).

Lemma hret {A} (a : A) pre (Q : A -> Prop) post :
  Q a -> Permutation pre (post a) -> hspec pre (mret a) Q post.
Proof. intros HQ HP h F W P. exists a, h. repeat split; try apply W; auto. perm. Qed.

Lemma hbind {A B} pre (m : mem A) Q post (f : A -> mem B) Q' post' :
  hspec pre m Q post -> (forall a, Q a -> hspec (post a) (f a) Q' post') ->
  hspec pre (mbind m f) Q' post'.
Proof.
  intros H1 H2 h F W P. destruct (H1 h F W P) as (a & h1 & E1 & W1 & Qa & P1).
  destruct (H2 a Qa h1 F W1 P1) as (b & h2 & E2 & W2 & Qb & P2).
  exists b, h2. unfold mbind. rewrite E1. cbn. auto.
Qed.

(* consequence and frame *)
Lemma hframe {A} R pre (m : mem A) (Q Q' : A -> Prop) post pre' post' :
  hspec pre m Q post ->
  Permutation pre' (pre ++ R) ->
  (forall a, Q a -> Q' a) ->
  (forall a, Q a -> Permutation (post a ++ R) (post' a)) ->
  hspec pre' m Q' post'.
Proof.
  intros H Hp HQ Hq h F W P.
  destruct (H h (R ++ F) W) as (a & h1 & E1 & W1 & Qa & P1).
  - perm.
  - exists a, h1. repeat split; try apply W1; auto. specialize (Hq a Qa). perm.
Qed.

(* frame with a bind: the first part uses [pre] out of [pre'] *)
Lemma hstep {A B} R pre (m : mem A) Q post (f : A -> mem B) pre' Q' post' :
  hspec pre m Q post ->
  Permutation pre' (pre ++ R) ->
  (forall a, Q a -> hspec (post a ++ R) (f a) Q' post') ->
  hspec pre' (mbind m f) Q' post'.
Proof.
  intros H1 Hp H2. eapply hbind.
  - eapply (hframe R _ _ Q Q _ _ (fun a => post a ++ R) H1 Hp); auto.
  - exact H2.
Qed.

Lemma hpre {A} pre pre' (m : mem A) Q post :
  Permutation pre pre' -> hspec pre' m Q post -> hspec pre m Q post.
Proof. intros P H. eapply (hframe [] _ _ Q Q _ _ _ H); auto; intros; perm. Qed.
Lemma hpost {A} pre (m : mem A) (Q Q' : A -> Prop) post post' :
  hspec pre m Q post -> (forall a, Q a -> Q' a) -> (forall a, Q a -> Permutation (post a) (post' a)) ->
  hspec pre m Q' post'.
Proof. intros H HQ HP. eapply (hframe [] _ _ Q Q' _ _ _ H); auto; [perm|intros a Qa; specialize (HP a Qa); perm]. Qed.

Lemma hnew f k : hspec [] (mnew f k) (fun _ => True) (fun a => [Cell a f k]).
Proof.
  intros h F [W1 W2] P. exists (h_next h), (Heap (S (h_next h)) (Cell (h_next h) f k :: h_live h)).
  split; [reflexivity|]. split; [|split; [exact I|cbn; constructor; exact P]].
  split; cbn.
  - constructor; [|exact W1]. intro HI. rewrite Forall_forall in W2. specialize (W2 _ HI). lia.
  - constructor; [lia|]. eapply Forall_impl; [|exact W2]. cbn. intros; lia.
Qed.

Lemma live_in h c pre F : Permutation (h_live h) (pre ++ F) -> In c pre -> In c (h_live h).
Proof. intros P HI. eapply Permutation_in; [symmetry; exact P|]. apply in_or_app; auto. Qed.

Lemma huse c pre : In c pre -> hspec pre (muse (c_addr c)) (fun _ => True) (fun _ => pre).
Proof.
  intros HI h F W P. exists tt, h. split; [clear W|auto].
  unfold muse. replace (existsb _ _) with true; [reflexivity|symmetry].
  apply existsb_exists. exists c. split; [eapply live_in; eauto|apply Nat.eqb_refl].
Qed.

Lemma muses_nil : muses [] = mret tt. Proof. reflexivity. Qed.
Lemma huses l pre : (forall a, In a l -> In a (addrs pre)) -> hspec pre (muses l) (fun _ => True) (fun _ => pre).
Proof.
  induction l as [|a l IH]; intros H.
  - apply hret; auto.
  - change (muses (a :: l)) with (_ <- muse a;; muses l).
    eapply hbind.
    + specialize (H a (or_introl eq_refl)). apply in_map_iff in H as (c & <- & HI).
      apply huse. exact HI.
    + intros ? _; cbn beta. apply IH. intros; apply H; right; auto.
Qed.

Lemma filter_none (a : nat) l : ~ In a (addrs l) -> filter (fun c => negb (c_addr c =? a)) l = l.
Proof.
  induction l as [|c l IH]; intro H; cbn; [reflexivity|].
  destruct (c_addr c =? a) eqn:E.
  - apply Nat.eqb_eq in E. exfalso. apply H. left. auto.
  - cbn. f_equal. apply IH. intro HI. apply H. right. auto.
Qed.
Lemma filter_out a f k l : NoDup (addrs l) -> In (Cell a f k) l ->
  Permutation l (Cell a f k :: filter (fun c => negb (c_addr c =? a)) l).
Proof.
  induction l as [|c l IH]; intros HN HI; [destruct HI|].
  cbn in HN. apply NoDup_cons_iff in HN as [HN1 HN2]. destruct HI as [E|HI].
  - subst c. cbn [filter c_addr]. rewrite Nat.eqb_refl. cbn [negb]. cbn in HN1.
    rewrite filter_none by exact HN1. reflexivity.
  - cbn [filter]. destruct (c_addr c =? a) eqn:E.
    + apply Nat.eqb_eq in E. exfalso. apply HN1. subst a. change (c_addr c) with (c_addr (Cell (c_addr c) f k)).
      apply in_map. exact HI.
    + cbn [negb]. specialize (IH HN2 HI). rewrite perm_swap, <- IH. reflexivity.
Qed.
Lemma addrs_filter l a : forall x, In x (addrs (filter (fun c => negb (c_addr c =? a)) l)) -> In x (addrs l).
Proof.
  intros x H. apply in_map_iff in H as (c & <- & HI). apply filter_In in HI. apply in_map. tauto.
Qed.
Lemma NoDup_filter_addrs l p : NoDup (addrs l) -> NoDup (addrs (filter p l)).
Proof.
  induction l as [|c l IH]; intro H; cbn; [constructor|].
  cbn in H. apply NoDup_cons_iff in H as [H1 H2]. destruct (p c); [|auto].
  cbn. constructor; [|auto]. intro HI. apply H1. apply in_map_iff in HI as (d & E & HI).
  apply filter_In in HI. rewrite <- E. apply in_map. tauto.
Qed.

Lemma find_cell l c : NoDup (addrs l) -> In c l -> find (fun d => c_addr d =? c_addr c) l = Some c.
Proof.
  induction l as [|d l IH]; intros HN HI; [destruct HI|].
  cbn in HN. apply NoDup_cons_iff in HN as [HN1 HN2]. cbn. destruct HI as [E|HI].
  - subst d. rewrite Nat.eqb_refl. reflexivity.
  - destruct (c_addr d =? c_addr c) eqn:E; [|auto].
    apply Nat.eqb_eq in E. exfalso. apply HN1. rewrite E. apply in_map. exact HI.
Qed.

Lemma hdel f a f' k : strict = false \/ f = f' ->
  hspec [Cell a f' k] (mdel f a) (fun _ => True) (fun _ => []).
Proof.
  intros HS h F [W1 W2] P.
  assert (HI : In (Cell a f' k) (h_live h)) by (eapply live_in; [exact P|left; reflexivity]).
  exists tt, (Heap (h_next h) (filter (fun c => negb (c_addr c =? a)) (h_live h))).
  split; [|split; [split|split; [exact I|]]]; cbn.
  - unfold MemModel.mdel. pose proof (find_cell _ _ W1 HI) as E. cbn [c_addr] in E. rewrite E. cbn [c_form].
    replace (strict && negb (form_eqb f f')) with false; [reflexivity|].
    destruct HS as [-> | ->]; [reflexivity|]. destruct f', strict; reflexivity.
  - apply NoDup_filter_addrs. exact W1.
  - rewrite Forall_forall in *. intros x Hx. apply W2. eapply addrs_filter; eauto.
  - pose proof (filter_out _ _ _ _ W1 HI) as P2.
    apply (Permutation_cons_inv (a := Cell a f' k)). rewrite <- P2. exact P.
Qed.

Lemma hwhen b m pre : (b = true -> hspec pre m (fun _ => True) (fun _ => pre)) ->
  hspec pre (mwhen b m) (fun _ => True) (fun _ => pre).
Proof. intros H. destruct b; cbn; [apply H; reflexivity|apply hret; auto]. Qed.

(* iteration *)
Lemma hiter {A} (f : A -> mem unit) l pre post :
  (forall x, In x l -> hspec (pre x) (f x) (fun _ => True) (fun _ => post x)) ->
  hspec (flat_map pre l) (miter f l) (fun _ => True) (fun _ => flat_map post l).
Proof.
  induction l as [|x l IH]; intros H; cbn [flat_map miter].
  - apply hret; auto.
  - eapply (hstep (flat_map pre l)); [apply H; left; reflexivity|reflexivity|].
    intros ? _; cbn beta. eapply (hframe (post x)); [apply IH; intros; apply H; right; auto| | |]; auto; intros; perm.
Qed.
Lemma hiter_same {A} (f : A -> mem unit) l pre :
  (forall x, In x l -> hspec pre (f x) (fun _ => True) (fun _ => pre)) ->
  hspec pre (miter f l) (fun _ => True) (fun _ => pre).
Proof.
  induction l as [|x l IH]; intros H; cbn [miter].
  - apply hret; auto.
  - eapply hbind; [apply H; left; reflexivity|]. intros ? _; cbn beta. apply IH. intros; apply H; right; auto.
Qed.
Lemma hmap {A B} (f : A -> mem B) l fixed pre (Q : A -> B -> Prop) post :
  (forall x, In x l -> hspec (pre x ++ fixed) (f x) (Q x) (fun y => post y ++ fixed)) ->
  hspec (flat_map pre l ++ fixed) (mmap f l) (Forall2 Q l) (fun ys => flat_map post ys ++ fixed).
Proof.
  induction l as [|x l IH]; intros H; cbn [flat_map mmap].
  - apply hret; [constructor|reflexivity].
  - eapply (hstep (flat_map pre l)); [apply H; left; reflexivity|perm|].
    intros y Qy. eapply (hstep (post y)); [apply IH; intros; apply H; right; auto|perm|].
    intros ys Qys. apply hret; [constructor; auto|]. cbn [flat_map]. perm.
Qed.
(* making objects, possibly with access to others *)
Lemma hmap_new {A B} (f : A -> mem B) l fixed (Q : A -> B -> Prop) post :
  (forall x, In x l -> hspec fixed (f x) (Q x) (fun y => post y ++ fixed)) ->
  hspec fixed (mmap f l) (Forall2 Q l) (fun ys => flat_map post ys ++ fixed).
Proof.
  intros H. eapply hpre; [|apply (hmap f l fixed (fun _ => []) Q post); exact H].
  clear H. induction l; cbn; auto.
Qed.
Lemma hrep {B} (f : mem B) n fixed post :
  hspec fixed f (fun _ => True) (fun y => post y ++ fixed) ->
  hspec fixed (mrep n f) (fun ys => length ys = n) (fun ys => flat_map post ys ++ fixed).
Proof.
  intros H. induction n as [|n IH]; cbn [mrep].
  - apply hret; [reflexivity|reflexivity].
  - eapply hbind; [exact H|]. intros y _. cbn beta. eapply (hstep (post y)); [exact IH|perm|].
    intros ys Qys. apply hret; [cbn; congruence|cbn [flat_map]; perm].
Qed.

Lemma hscratch f : strict = false \/ f = Arr -> hspec [] (mscratch strict f) (fun _ => True) (fun _ => []).
Proof.
  intros HS. unfold mscratch. eapply hbind; [apply hnew|]. intros b _. cbn beta.
  eapply hbind; [apply (huse (Cell b Arr KBuffer)); left; reflexivity|]. intros ? _; cbn beta.
  apply hdel. exact HS.
Qed.
End Proofs.
