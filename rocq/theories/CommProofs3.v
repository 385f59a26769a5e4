(* Processes side by side: rules for what all of them do next. *)
From Coq Require Import ZArith List Bool Arith Lia.
From Verif Require Import Base BaseFacts CommModel CommProofs CommProofs2.
Import ListNotations.
Local Open Scope list_scope.

Fixpoint mapi {A B} (k : nat) (f : nat -> A -> B) (l : list A) : list B :=
  match l with [] => [] | a :: r => f k a :: mapi (S k) f r end.
Lemma mapi_len {A B} (f : nat -> A -> B) l : forall k, length (mapi k f l) = length l.
Proof. induction l as [|a l IH]; intros k; cbn; auto. Qed.
Lemma mapi_nth {A B} (f : nat -> A -> B) l : forall k r, nth_error (mapi k f l) r = option_map (f (k + r)) (nth_error l r).
Proof.
  induction l as [|a l IH]; intros k [|r]; cbn; auto. { rewrite Nat.add_0_r. reflexivity. }
  rewrite IH. replace (S k + r) with (k + S r) by lia. reflexivity.
Qed.
Lemma mapi_const {A B} (f : nat -> A -> B) (g : A -> B) l : (forall r a, f r a = g a) -> forall k, mapi k f l = map g l.
Proof. intros H. induction l as [|a l IH]; intros k; cbn; [reflexivity|]. rewrite H, IH. reflexivity. Qed.

Section Comm.
Context {D W : Type}.
Variables (none : D) (gather reduce : list D -> D).
Notation delivers := (delivers none gather reduce).
Notation sync := (@sync D W none gather reduce).
Notation proc := (proc D W).

Lemma sync_done {X} d (xs : list X) w : xs <> [] -> sync d (map (fun _ => Done) xs) w <-> w = [].
Proof.
  intros NE. split.
  - intros (hist & _ & F). destruct xs as [|x xs]; [congruence|]. destruct (F 0 Done eq_refl) as (m & H). apply follows_done in H. apply H.
  - intros ->. exists []. split; [constructor|]. intros r p E. exists 0. rewrite nth_error_map in E. destruct (nth_error xs r); [|discriminate]. inversion E. cbn [map].
    destruct r; apply F_done.
Qed.
Lemma sync_died d ps w r f : sync d ps w -> nth_error ps r <> Some (Died f).
Proof. intros (hist & _ & F) E. destruct (F r _ E) as (m & H). eapply follows_died; eauto. Qed.

Lemma sync_call {X} d (c : X -> coll) (s : X -> D) (K : X -> D -> proc) (xs : list X) w : xs <> [] ->
  sync d (map (fun x => Call (c x) (s x) (K x)) xs) w <->
  exists c0, (forall x, In x xs -> c x = c0) /\ (d = 1 -> full c0 = true) /\
    sync (pred d) (mapi 0 (fun r x => K x (delivers c0 r (map s xs))) xs) w.
Proof.
  intros NE. split.
  - intros (hist & FL & F). destruct hist as [|[c0 ss] hist].
    { exfalso. destruct xs as [|x xs]; [congruence|]. destruct (F 0 _ eq_refl) as (m & H). apply follows_call in H. destruct H as (a & l & m' & H & _). discriminate. }
    assert (G : forall r x, nth_error xs r = Some x -> c x = c0 /\ nth r ss none = s x /\ (d = 1 -> full c0 = true) /\
      exists m, follows (pred d) (K x (delivers c0 r ss)) (map (entry none gather reduce r) hist) (match r with O => w | S _ => [] end) m).
    { intros r x E. destruct (F r (Call (c x) (s x) (K x))) as (m & H). { rewrite nth_error_map, E. reflexivity. }
      apply follows_call in H. destruct H as (a & l & m' & H & _ & Hd & Hf). cbn [map] in H. unfold entry at 1 in H. cbn [fst snd] in H. inversion H; subst.
      split; [congruence|]. split; [congruence|]. split; [exact Hd|]. exists m'. assumption. }
    assert (ES : ss = map s xs).
    { inversion FL as [|y z H1 H2]; subst. cbn [snd] in H1. rewrite map_length in H1. apply nth_ext with (d := none) (d' := none); [rewrite map_length; exact H1|].
      intros r Hr. destruct (nth_ex xs r) as (x & E); [lia|]. destruct (G r x E) as (_ & G2 & _). rewrite G2. symmetry. apply nth_error_nth. rewrite nth_error_map, E. reflexivity. }
    subst ss. exists c0. split; [|split].
    + intros x I. apply In_nth_error in I. destruct I as (r & E). apply (G r x E).
    + destruct xs as [|x xs]; [congruence|]. apply (G 0 x eq_refl).
    + exists hist. inversion FL as [|y z H1 H2]; subst. split.
      * rewrite mapi_len. rewrite map_length in H2. exact H2.
      * intros r p E. rewrite mapi_nth in E. cbn [plus] in E. destruct (nth_error xs r) as [x|] eqn:Ex; [|discriminate]. inversion E; subst p. apply (G r x Ex).
  - intros (c0 & HC & Hd & hist & FL & F). exists ((c0, map s xs) :: hist). split.
    + constructor; [cbn [snd]; rewrite !map_length; reflexivity|]. rewrite mapi_len in FL. rewrite map_length. exact FL.
    + intros r p E. rewrite nth_error_map in E. destruct (nth_error xs r) as [x|] eqn:Ex; [|discriminate]. cbn in E. inversion E; subst p.
      destruct (F r (K x (delivers c0 r (map s xs)))) as (m & H). { rewrite mapi_nth, Ex. reflexivity. }
      exists (S (S m)). cbn [map]. unfold entry at 1. cbn [fst snd]. rewrite (HC x (nth_error_In _ _ Ex)).
      replace (nth r (map s xs) none) with (s x) by (symmetry; apply nth_error_nth; rewrite nth_error_map, Ex; reflexivity). constructor; assumption.
Qed.
(* operations whose answer is not used *)
Lemma sync_barrier {X} d c0 s0 (K : X -> proc) (xs : list X) w : xs <> [] -> (d = 1 -> full c0 = true) ->
  sync d (map (fun x => Call c0 s0 (fun _ => K x)) xs) w <-> sync (pred d) (map K xs) w.
Proof.
  intros NE Hd. rewrite sync_call by exact NE. split.
  - intros (c & _ & _ & H). erewrite mapi_const in H; [exact H|]. reflexivity.
  - intros H. exists c0. split; [reflexivity|]. split; [exact Hd|]. erewrite mapi_const; [exact H|]. reflexivity.
Qed.
Lemma sync_write f p ps w : sync 0 (Write f p :: ps) w <-> exists w', w = f :: w' /\ sync 0 (p :: ps) w'.
Proof.
  split.
  - intros (hist & FL & F). destruct (F 0 _ eq_refl) as (m & H). apply follows_write in H. destruct H as (w' & m' & _ & -> & -> & H).
    exists w'. split; [reflexivity|]. exists hist. split; [exact FL|]. intros [|r] q E; [cbn in E; inversion E; subst; eauto|]. exact (F (S r) q E).
  - intros (w' & -> & hist & FL & F). exists hist. split; [exact FL|]. intros [|r] q E; [|exact (F (S r) q E)].
    cbn in E. inversion E; subst. destruct (F 0 _ eq_refl) as (m & H). exists (S m). constructor. exact H.
Qed.
Lemma sync_read {X} d (K : X -> list W -> proc) (xs : list X) w :
  sync (S d) (map (fun x => Read (K x)) xs) w <-> sync (S d) (map (fun x => K x []) xs) w.
Proof.
  split; intros (hist & FL & F); exists hist; (split; [rewrite map_length in *; exact FL|]); intros r p E; rewrite nth_error_map in E;
    destruct (nth_error xs r) as [x|] eqn:Ex; try discriminate; inversion E; subst p.
  - destruct (F r (Read (K x))) as (m & H). { rewrite nth_error_map, Ex. reflexivity. } apply follows_read in H. destruct H as (m' & _ & _ & H). eauto.
  - destruct (F r (K x [])) as (m & H). { rewrite nth_error_map, Ex. reflexivity. } exists (S m). constructor. exact H.
Qed.

(* a computation which may fail *)
Notation lift := (@lift D W _).
Lemma lift_head {A} d (r : res A) k ps w : sync d (lift r k :: ps) w <-> exists a, r = Ok a /\ sync d (k a :: ps) w.
Proof.
  split.
  - intros H. destruct r as [a|e| |]; [eauto|exfalso..]; eapply (sync_died _ _ _ 0) in H; apply H; reflexivity.
  - intros (a & -> & H). exact H.
Qed.
Lemma sync_lift {X A} d (f : X -> res A) (K : X -> A -> proc) (xs : list X) w :
  sync d (map (fun x => lift (f x) (K x)) xs) w <->
  exists ys, map_res f xs = Ok ys /\ sync d (map (fun xy => K (fst xy) (snd xy)) (combine xs ys)) w.
Proof.
  assert (E : forall ys, map_res f xs = Ok ys -> map (fun x => lift (f x) (K x)) xs = map (fun xy => K (fst xy) (snd xy)) (combine xs ys)).
  { induction xs as [|x xs IH]; intros ys H; cbn [map_res] in H; [apply Ok_inj in H; subst; reflexivity|].
    bget H as y Hy. bget H as l Hl. apply Ok_inj in H. subst ys. cbn [map combine fst snd]. rewrite Hy, (IH l Hl). reflexivity. }
  split.
  - intros H. assert (Z : exists ys, map_res f xs = Ok ys).
    { assert (N : forall x, In x xs -> exists y, f x = Ok y).
      { intros x I. apply In_nth_error in I. destruct I as (r & Er). destruct (f x) as [y|e| |] eqn:Ef; [eauto|exfalso..]; eapply (sync_died _ _ _ r) in H; apply H;
          rewrite nth_error_map, Er; cbn [option_map lift]; rewrite Ef; reflexivity. }
      clear -N. induction xs as [|x xs IH]; [exists []; reflexivity|]. destruct (N x (or_introl eq_refl)) as (y & Ey). destruct IH as (ys & E). { intros z I. apply N. right. exact I. }
      exists (y :: ys). cbn [map_res]. rewrite Ey. cbn [bind]. rewrite E. reflexivity. }
    destruct Z as (ys & Ey). exists ys. split; [exact Ey|]. rewrite <- (E ys Ey). exact H.
  - intros (ys & Ey & H). rewrite (E ys Ey). exact H.
Qed.
End Comm.
