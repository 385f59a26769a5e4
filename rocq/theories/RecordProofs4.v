(* The integration of a beam by an observer in time succeeds or is undefined, nothing else. *)
From Coq Require Import ZArith Reals List Lia Lra Bool.
From Verif Require Import Base BaseFacts Num VecModel VecFacts ParticleModel ParticleSpec ParticleSpec2 TraceModel RetardModel RetardSpec RetardProofs3 TraceIntSpec TraceIntSpec2 TraceSpec BunchModel BunchSpec BeamSpec
  ObserverModel ObserverSpec ObserverSpec2 ObserverProofs ObserverProofs2 ObserverProofs3 ObserverProofs4 ObserverProofs5 ObserverProofs6 RecordSpec RecordSpec2 RecordProofs RecordProofs2 RecordProofs3 PropSample PropTrace PropBeam TraceIntProofs3 PropTrace3.
Import ListNotations.
Local Open Scope R_scope.

Definition fine {A} (P : A -> Prop) (r : res A) : Prop := match r with Ok a => P a | UB => True | _ => False end.
Lemma fine_bind {A B} (P : A -> Prop) (Q : B -> Prop) (r : res A) k : fine P r -> (forall a, P a -> fine Q (k a)) -> fine Q (bind r k).
Proof. destruct r; cbn; auto. Qed.
Lemma fine_fold {A X} (P : A -> Prop) (f : A -> X -> res A) : forall l z, P z -> (forall a x, In x l -> P a -> fine P (f a x)) -> fine P (fold_res f l z).
Proof.
  induction l as [|x l IH]; intros z Hz H; [exact Hz|]. cbn [fold_res]. apply (fine_bind P); [apply H; [left; reflexivity|exact Hz]|].
  intros a Ha. apply IH; [exact Ha|]. intros b y Hy. apply H. right. exact Hy.
Qed.
Lemma fine_zget {A} (P : A -> Prop) l i : List.Forall P l -> fine P (zget l i).
Proof.
  intros H. destruct (zget l i) as [a|e| |] eqn:E; try exact I; try (unfold zget in E; destruct (i <? 0)%Z; [discriminate|destruct (nth_error _ _); discriminate]).
  apply zget_inv in E. destruct E as [_ E]. apply nth_error_In in E. rewrite Forall_forall in H. exact (H a E).
Qed.
Lemma lset_forall {A} (P : A -> Prop) a : P a -> forall l n, List.Forall P l -> List.Forall P (lset l n a).
Proof.
  intros Ha. induction l as [|b l IH]; intros n H; [destruct n; constructor|]. inversion_clear H.
  destruct n; cbn [lset]; constructor; auto.
Qed.
Lemma fine_zset {A} (P : A -> Prop) l i a : List.Forall P l -> P a -> fine (List.Forall P) (zset l i a).
Proof. intros H Ha. unfold zset. destruct (_ || _); [exact I|]. apply lset_forall; assumption. Qed.

Definition good (tr : ftrace R) : Prop := 0 < tr_dt tr /\ (2 <= tr_N tr <= int_max)%Z.
Lemma part_fine p x tr : wf p -> subluminal (trajectory p) -> good tr -> fine good (integrateFieldTrace p x tr).
Proof.
  intros W S [Hd Hn]. pose proof (arrivals_increase _ x S) as Hi. destruct (trace_reach p x tr W Hd Hn Hi) as [OK BAD].
  destruct (late_any p x tr) as [L|L]; [rewrite (BAD L); exact I|]. destruct (OK L) as (tr' & E & _). rewrite E.
  destruct (C14_completed_partial p x tr tr' W Hd Hn Hi E) as ((Ln & T0 & Dt) & _). split; [rewrite <- Dt; exact Hd|].
  unfold tr_N in *. rewrite <- Ln. exact Hn.
Qed.
Section Beam.
Variable bm : beam R.
Hypothesis Hp : forall p, In p (beam_ps bm) -> wf p /\ subluminal (trajectory p).
Lemma beam_fine x tr : good tr -> fine good (beam_integrate bm x tr).
Proof using Hp.
  intros G. rewrite C62_field_trace. apply fine_fold; [exact G|]. intros a p Hi Ga. destruct (Hp p Hi). apply part_fine; assumption.
Qed.
Lemma integrate_fine (o : observer R) : shaped o -> timed o -> (2 <= snd (extent o) <= int_max)%Z -> (match o with OSnap _ => False | _ => True end) ->
  (forall a b t0 dt, in_cells o (a, b) -> cell_clock o a b t0 dt -> 0 < dt) -> fine (fun _ => True) (obs_integrate (SBeam bm) o).
Proof using Hp.
  intros Sh Ti Hn Ns Hd. destruct o as [s|s|s|s]; cbn [obs_integrate extent snd] in *; [|destruct Ns| |].
  - pose proof Sh as (_ & _ & _ & H1 & H2). unfold screen_integrate. apply (fine_bind (fun _ => True)); [|intros; exact I].
    apply (fine_bind (List.Forall (List.Forall good))); [|intros; exact I]. apply fine_fold.
    + rewrite Forall_forall. intros r Hr. pose proof Hr as Hr'. rewrite Forall_forall in H2. destruct (H2 r Hr) as [L1 L2]. rewrite Forall_forall in *.
      intros tr Htr. split; [|rewrite (L2 tr Htr); exact Hn].
      apply In_nth_error in Hr. destruct Hr as [i Ei]. pose proof Htr as Htr'. apply In_nth_error in Htr. destruct Htr as [j Ej].
      assert (A : (0 <= Z.of_nat i < scNx s)%Z). { assert (i < length (scTr s))%nat by (apply nth_error_Some; congruence). lia. }
      assert (B : (0 <= Z.of_nat j < scNy s)%Z). { assert (j < length r)%nat by (apply nth_error_Some; congruence). lia. }
      apply (Hd (Z.of_nat i) (Z.of_nat j) (tr_t0 tr)); [split; assumption|]. apply (Ti _ _ tr A B).
      unfold cell_get. rewrite (zget_nth _ _ _ Ei). cbn [bind]. apply zget_nth. exact Ej.
    + intros m [x y] _ Hm. unfold cell_get, cell_set. apply (fine_bind good).
      { apply (fine_bind (List.Forall good)); [apply fine_zget; exact Hm|]. intros r Hr. apply fine_zget. exact Hr. }
      intros tr G. apply (fine_bind good).
      { unfold screen_cell, screen_pos. apply (fine_bind (fun _ => True)).
        - unfold centred. repeat (apply (fine_bind (fun _ => True)); [|intros ? _]); try exact I; unfold iadd, to_int; destruct (in_int _); exact I.
        - intros pos _. apply beam_fine. exact G. }
      intros tr' G'. apply (fine_bind (List.Forall good)); [apply fine_zget; exact Hm|]. intros r Hr.
      apply (fine_bind (List.Forall good)); [apply fine_zset; assumption|]. intros r' Hr'. apply fine_zset; assumption.
  - unfold point_integrate. apply (fine_bind (fun _ => True)); [|intros; exact I].
    apply (fine_bind good); [|intros; exact I]. apply beam_fine. split; [|exact Hn].
    apply (Hd 0%Z 0%Z (tr_t0 (poTr s))); [split; cbn; lia|split; reflexivity].
  - pose proof Sh as (_ & H1 & H2). unfold mesh_integrate. apply (fine_bind (fun _ => True)); [|intros; exact I].
    apply (fine_bind (List.Forall good)); [|intros; exact I]. apply fine_fold.
    + rewrite Forall_forall in *. intros tr Htr. split; [|rewrite (H2 tr Htr); exact Hn].
      apply In_nth_error in Htr. destruct Htr as [i Ei].
      assert (A : (0 <= Z.of_nat i < mesh_Np s)%Z). { assert (i < length (msA s))%nat by (apply nth_error_Some; congruence). unfold mesh_Np. lia. }
      apply (Hd (Z.of_nat i) 0%Z (tr_t0 tr)); [split; cbn; [exact A|lia]|]. exists tr. rewrite Nat2Z.id. auto.
    + intros m x _ Hm. apply (fine_bind good); [apply fine_zget; exact Hm|]. intros tr G. apply (fine_bind good).
      { unfold mesh_cell. apply (fine_bind (fun _ => True)); [apply fine_zget; apply Forall_forall; intros; exact I|]. intros pos _. apply beam_fine. exact G. }
      intros tr' G'. apply fine_zset; assumption.
Qed.
End Beam.
