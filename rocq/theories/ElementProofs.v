(* Lattice superposition and displacement *)
From Coq Require Import ZArith List Bool Lia Reals Lra Permutation.
From Verif Require Import Base Num VecModel VecFacts BaseFacts ParticleModel BunchModel ElementModel ElementSpec.
Import ListNotations.
Local Open Scope R_scope.
Local Open Scope res_scope.

Lemma eadd_assoc (a b c : emf R) : eadd (eadd a b) c = eadd a (eadd b c).
Proof. vring. Qed.
Lemma eadd_comm (a b : emf R) : eadd a b = eadd b a.
Proof. vring. Qed.
Lemma eadd_0_l (a : emf R) : eadd ezero a = a.
Proof. vring. Qed.
Lemma eadd_0_r (a : emf R) : eadd a ezero = a.
Proof. vring. Qed.

Section L.
Variables (t : R) (X : vec R).
Let step := fun tot e => f <- element_field e t X;; Ok (eadd tot f).
Lemma lat_sum_from els fs (Hf : Forall2 (fun e f => element_field e t X = Ok f) els fs) :
  forall s, fold_res step els s = Ok (eadd s (sum_of fs)).
Proof.
  induction Hf as [|e f els fs He Hf IH]; intros s; cbn [fold_res sum_of fold_right].
  - now rewrite eadd_0_r.
  - unfold step at 1; rewrite He; cbn [bind]. rewrite IH. f_equal. apply eadd_assoc.
Qed.
Lemma lat_sum els fs :
  Forall2 (fun e f => element_field e t X = Ok f) els fs -> lat_field els t X = Ok (sum_of fs).
Proof. intros Hf. unfold lat_field. rewrite (lat_sum_from els fs Hf). f_equal. apply eadd_0_l. Qed.
Lemma lat_inv_from els : forall s f, fold_res step els s = Ok f ->
  exists fs, Forall2 (fun e f => element_field e t X = Ok f) els fs /\ f = eadd s (sum_of fs).
Proof.
  induction els as [|e els IH]; cbn [fold_res]; intros s f Hf.
  - injection Hf as <-. exists []. split; [constructor|]. cbn. now rewrite eadd_0_r.
  - unfold step at 1 in Hf. destruct (element_field e t X) as [g| | |] eqn:Eg; cbn [bind] in Hf; try discriminate.
    destruct (IH _ _ Hf) as (fs & H1 & ->). exists (g :: fs). split; [constructor; auto|].
    cbn [sum_of fold_right]. apply eadd_assoc.
Qed.
Lemma lat_inv els f : lat_field els t X = Ok f ->
  exists fs, Forall2 (fun e f => element_field e t X = Ok f) els fs /\ f = sum_of fs.
Proof.
  intros Hf. destruct (lat_inv_from els ezero f Hf) as (fs & H1 & ->). exists fs. split; [exact H1|].
  apply eadd_0_l.
Qed.
End L.

Lemma sum_of_perm l l' : Permutation l l' -> sum_of l = sum_of l'.
Proof.
  induction 1 as [|x l l' _ IH|x y l|l l' l'' _ IH1 _ IH2]; cbn [sum_of fold_right]; auto.
  - unfold sum_of in IH. now rewrite IH.
  - rewrite <- !eadd_assoc. now rewrite (eadd_comm y x).
  - congruence.
Qed.
Lemma Forall2_perm {A B} (P : A -> B -> Prop) l l' :
  Permutation l l' -> forall m, Forall2 P l m -> exists m', Permutation m m' /\ Forall2 P l' m'.
Proof.
  induction 1 as [|x l l' _ IH|x y l|l l' l'' _ IH1 _ IH2]; intros m Hm.
  - inversion Hm; subst. exists []. split; constructor.
  - inversion Hm as [|? b ? mm Hb Hmm]; subst. destruct (IH _ Hmm) as (m' & P1 & P2).
    exists (b :: m'). split; constructor; auto.
  - inversion Hm as [|? b ? mm Hb Hmm]; subst. inversion Hmm as [|? c ? mc Hc Hmc]; subst.
    exists (c :: b :: mc). split; [constructor|]. constructor; auto.
  - destruct (IH1 _ Hm) as (m1 & P1 & P2). destruct (IH2 _ P2) as (m2 & P3 & P4).
    exists m2. split; [eapply perm_trans; eassumption|assumption].
Qed.

Lemma lat_perm els els' t X f :
  Permutation els els' -> lat_field els t X = Ok f -> lat_field els' t X = Ok f.
Proof.
  intros Hp Hf. destruct (lat_inv t X els f Hf) as (fs & H1 & ->).
  destruct (Forall2_perm _ _ _ Hp _ H1) as (fs' & P1 & P2).
  rewrite (lat_sum t X els' fs' P2). f_equal. symmetry. now apply sum_of_perm.
Qed.

Lemma sum_of_app a b : sum_of (a ++ b) = eadd (sum_of a) (sum_of b).
Proof.
  induction a as [|x a IH]; cbn [app sum_of fold_right]. 
  - symmetry; apply eadd_0_l.
  - unfold sum_of in IH. rewrite IH. symmetry. apply eadd_assoc.
Qed.
Lemma lat_app_ok els e t X f g :
  lat_field els t X = Ok f -> element_field e t X = Ok g ->
  lat_field (lat_add els e) t X = Ok (eadd f g).
Proof.
  intros Hf Hg. destruct (lat_inv t X els f Hf) as (fs & H1 & ->).
  rewrite (lat_sum t X (lat_add els e) (fs ++ [g])).
  - f_equal. rewrite sum_of_app. f_equal. cbn [sum_of fold_right]. apply eadd_0_r.
  - apply Forall2_app; auto.
Qed.

Lemma lat_count_id (els : list (element R)) :
  (Z.of_nat (length els) <= int_max)%Z -> lat_count els = Z.of_nat (length els).
Proof. intros H. unfold lat_count, i32, int_max in *. rewrite Z.mod_small; lia. Qed.

Lemma lat_bad_false (els : list (element R)) i :
  (Z.of_nat (length els) <= int_max)%Z -> (0 <= i < Z.of_nat (length els))%Z -> lat_bad els i = false.
Proof.
  intros Hl Hi. unfold lat_bad. rewrite lat_count_id by exact Hl.
  apply orb_false_iff; split; [apply Z.ltb_ge|apply Z.leb_gt]; lia.
Qed.
Lemma lat_bad_true (els : list (element R)) i :
  (i < 0 \/ Z.of_nat (length els) <= i)%Z -> (i <= int_max)%Z -> lat_bad els i = true.
Proof.
  intros Hi Hm. unfold lat_bad. destruct (i <? 0)%Z eqn:E; [reflexivity|]. apply Z.ltb_ge in E.
  rewrite lat_count_id by lia. cbn [orb]. apply Z.leb_le; lia.
Qed.

Lemma lat_remove_ok (els : list (element R)) i :
  (Z.of_nat (length els) <= int_max)%Z -> (0 <= i < Z.of_nat (length els))%Z ->
  exists a e b, els = a ++ e :: b /\ Z.of_nat (length a) = i /\
    lat_at els i = Ok e /\ lat_remove els i = Ok (a ++ b).
Proof.
  intros Hl Hi. set (n := Z.to_nat i). assert (Hn : (n < length els)%nat) by (unfold n; lia).
  destruct (nth_error els n) as [e|] eqn:En; [|apply nth_error_None in En; lia].
  destruct (nth_error_split els n En) as (a & b & -> & Ha).
  exists a, e, b. split; [reflexivity|]. split; [unfold n in Ha; lia|].
  unfold lat_at, lat_remove. rewrite lat_bad_false by assumption. split.
  - replace i with (Z.of_nat n) by (unfold n; lia). apply zget_nth. exact En.
  - f_equal. fold n. rewrite <- Ha. f_equal.
    + rewrite firstn_app, Nat.sub_diag, firstn_all. cbn. apply app_nil_r.
    + change (a ++ e :: b) with (a ++ [e] ++ b). rewrite app_assoc.
      replace (S (length a)) with (length (a ++ [e])) by (rewrite app_length; cbn; lia).
      rewrite skipn_app, Nat.sub_diag, skipn_all. reflexivity.
Qed.
Lemma esub_eadd (a b : emf R) : esub (eadd b a) b = a.
Proof. vring. Qed.
Lemma lat_remove_field (a b : list (element R)) e t X f g :
  lat_field (a ++ e :: b) t X = Ok f -> element_field e t X = Ok g ->
  lat_field (a ++ b) t X = Ok (esub f g).
Proof.
  intros Hf Hg. apply (lat_perm _ (e :: a ++ b)) in Hf; [|symmetry; apply Permutation_middle].
  destruct (lat_inv t X _ f Hf) as (fs & H1 & ->). inversion H1 as [|? g' ? fs' Hg' H2]; subst.
  rewrite (lat_sum t X _ fs' H2). f_equal. rewrite Hg in Hg'. injection Hg' as <-.
  cbn [sum_of fold_right]. symmetry. apply esub_eadd.
Qed.

(* ---- displacement ---- *)
Lemma vsub_shift (X o d : vec R) : vsub (vadd X d) (vadd o d) = vsub X o.
Proof. vring. Qed.
Lemma displaced_field dt d e e' t X :
  displaced dt d e e' -> element_field e' (t + dt) (vadd X d) = element_field e t X.
Proof.
  intros (t0 & o & l & -> & ->). cbn [element_field]. rewrite vsub_shift. f_equal.
  unnum; ring.
Qed.
Lemma displaced_lattice dt d els els' t X :
  Forall2 (displaced dt d) els els' ->
  lat_field els' (t + dt) (vadd X d) = lat_field els t X.
Proof.
  intros Hd. unfold lat_field. generalize (@ezero R NumR).
  induction Hd as [|e e' els els' He Hd IH]; intros s; cbn [fold_res]; [reflexivity|].
  rewrite (displaced_field dt d e e' t X He). destruct (element_field e t X); cbn [bind]; auto.
Qed.
