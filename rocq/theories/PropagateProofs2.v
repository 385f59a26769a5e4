(* Least-squares fits and Kirchhoff sums *)
From Coq Require Import ZArith List Bool Lia Reals Lra Psatz.
From Coquelicot Require Import Coquelicot.
From Verif Require Import Base BaseFacts Num VecModel VecFacts ParticleModel TraceModel TraceSpec TraceProofs TraceProofs2
  BunchModel ObserverModel ObserverSpec2 ElementProofs PropagateModel PropagateSpec PropagateProofs.
Import ListNotations.
Local Open Scope R_scope.

(* ---- least squares ---- *)
Lemma residual_nonneg A x b : 0 <= residual A x b.
Proof.
  unfold residual. induction (combine A b) as [|p l IH]; cbn [map fold_right]; [lra|].
  pose proof (Rle_0_sqr (rowdot (fst p) x - snd p)) as H. unfold Rsqr in H. lra.
Qed.
Lemma residual_self A a : residual A a (map (fun r => rowdot r a) A) = 0.
Proof.
  unfold residual. induction A as [|r A IH]; cbn [map combine fold_right]; [reflexivity|].
  rewrite IH. cbn [fst snd]. ring.
Qed.
Lemma residual_zero A x a : residual A x (map (fun r => rowdot r a) A) = 0 ->
  forall r, In r A -> rowdot r x = rowdot r a.
Proof.
  induction A as [|q A IH]; intros H r Hr; [destruct Hr|]. unfold residual in H. cbn [map combine fold_right fst snd] in H.
  change (fold_right Rplus 0 (map (fun p => (rowdot (fst p) x - snd p) * (rowdot (fst p) x - snd p))
    (combine A (map (fun r => rowdot r a) A)))) with (residual A x (map (fun r => rowdot r a) A)) in H.
  pose proof (residual_nonneg A x (map (fun r => rowdot r a) A)) as P.
  pose proof (Rle_0_sqr (rowdot q x - rowdot q a)) as Q. unfold Rsqr in Q.
  destruct Hr as [<-|Hr]; [nra|]. apply IH; [lra|exact Hr].
Qed.
Definition lsub (x a : list R) : list R := map (fun p => fst p - snd p) (combine x a).
Lemma rowdot_lsub r : forall x a, length x = length a -> rowdot r (lsub x a) = rowdot r x - rowdot r a.
Proof.
  unfold rowdot, lsub. induction r as [|q r IH]; intros x a H; cbn; [ring|].
  destruct x as [|u x], a as [|v a]; try discriminate; cbn; [ring|]. rewrite IH by (now injection H). ring.
Qed.
Lemma lsub_zero n : forall x a, length x = n -> length a = n -> lsub x a = repeat 0 n -> x = a.
Proof.
  unfold lsub. induction n as [|n IH]; intros [|u x] [|v a] H1 H2 H; try discriminate; [reflexivity|].
  cbn [combine map repeat fst snd] in H. injection H as H H3. f_equal; [lra|]. apply IH; [now injection H1|now injection H2|exact H3].
Qed.
Lemma fit_exact solve A a : least_squares solve A -> determined A -> length a = 6%nat ->
  solve A (map (fun r => rowdot r a) A) = a.
Proof.
  intros HS HD HL. destruct (HS (map (fun r => rowdot r a) A)) as [L1 L2]. specialize (L2 a HL). rewrite residual_self in L2.
  pose proof (residual_nonneg A (solve A (map (fun r => rowdot r a) A)) (map (fun r => rowdot r a) A)) as P.
  set (x := solve A (map (fun r => rowdot r a) A)) in *.
  assert (Z : residual A x (map (fun r => rowdot r a) A) = 0) by lra.
  apply (lsub_zero 6); [exact L1|exact HL|]. apply HD.
  - unfold lsub. rewrite map_length, combine_length, L1, HL. reflexivity.
  - intros r Hr. rewrite rowdot_lsub by congruence. rewrite (residual_zero A x a Z r Hr). ring.
Qed.

(* ---- values of linearly transformed traces ---- *)
Definition linear (L : emf R -> emf R) : Prop :=
  L ezero = ezero /\ forall f g a b, L (eadd (emul f a) (emul g b)) = eadd (emul (L f) a) (emul (L g) b).
Lemma zget_map {A B} (h : A -> B) l i : zget (map h l) i = match zget l i with Ok x => Ok (h x) | Throw e => Throw e | UB => UB | Loop => Loop end.
Proof.
  unfold zget. destruct (i <? 0)%Z; [reflexivity|]. rewrite nth_error_map. destruct (nth_error l (Z.to_nat i)); reflexivity.
Qed.
Lemma tr_at_linear L tr t : linear L ->
  tr_at (FT (tr_t0 tr) (tr_dt tr) (map L (tr_f tr))) t
  = match tr_at tr t with Ok f => Ok (L f) | Throw e => Throw e | UB => UB | Loop => Loop end.
Proof.
  intros [L0 L1]. unfold tr_at. cbn [tr_t0 tr_dt].
  destruct (to_int (nfloor ((t - tr_t0 tr) / tr_dt tr)%num)) as [i| | |]; cbn [bind]; [|reflexivity..].
  unfold tr_N. cbn [tr_f]. rewrite map_length.
  assert (S : forall k, tr_sample (FT (tr_t0 tr) (tr_dt tr) (map L (tr_f tr))) (i32 (Z.of_nat (length (tr_f tr)))) k
    = match tr_sample tr (i32 (Z.of_nat (length (tr_f tr)))) k with Ok f => Ok (L f) | Throw e => Throw e | UB => UB | Loop => Loop end).
  { intros k. unfold tr_sample. cbn [tr_f]. destruct ((0 <=? k)%Z && (k <? i32 (Z.of_nat (length (tr_f tr))))%Z).
    - apply zget_map.
    - rewrite L0. reflexivity. }
  rewrite S. destruct (tr_sample tr (i32 (Z.of_nat (length (tr_f tr)))) i) as [f1| | |]; cbn [bind]; [|reflexivity..].
  destruct (to_int (Some (i + 1)%Z)) as [k| | |]; cbn [bind]; [|reflexivity..].
  rewrite S. destruct (tr_sample tr (i32 (Z.of_nat (length (tr_f tr)))) k) as [f2| | |]; cbn [bind]; [|reflexivity..].
  rewrite L1. reflexivity.
Qed.
Lemma linear_local xi eta n : linear (to_local xi eta n).
Proof. split; [|intros f g a b]; unfold to_local; vdestr; vunfold; unnum; vsplit; ring. Qed.
Lemma linear_emul k : linear (fun f => emul f k).
Proof. split; [|intros f g a b]; vdestr; vunfold; unnum; vsplit; ring. Qed.
Lemma tr_at_transform tr xi eta n t :
  tr_at (tr_transform tr xi eta n) t
  = match tr_at tr t with Ok f => Ok (to_local xi eta n f) | Throw e => Throw e | UB => UB | Loop => Loop end.
Proof. exact (tr_at_linear _ tr t (linear_local xi eta n)). Qed.
Lemma tr_at_mul tr k t :
  tr_at (tr_mul tr k) t = match tr_at tr t with Ok f => Ok (emul f k) | Throw e => Throw e | UB => UB | Loop => Loop end.
Proof. exact (tr_at_linear _ tr t (linear_emul k)). Qed.
Lemma value_mul tr k t : value (tr_mul tr k) t = emul (value tr t) k.
Proof.
  unfold value. rewrite tr_at_mul. destruct (tr_at tr t); try reflexivity; symmetry; apply (proj1 (linear_emul k)).
Qed.

(* ---- the fit of the fields of the neighbours ---- *)
Definition quad (q0 q1 q2 q3 q4 q5 : emf R) (c : vec R) : emf R :=
  eadd (eadd (eadd q0 (emul q1 (vx c))) (emul q2 (vy c))) (second q3 q4 q5 c).
Lemma quad_component (pi : emf R -> R) q0 q1 q2 q3 q4 q5 cs :
  (forall f g, pi (eadd f g) = pi f + pi g) -> (forall f k, pi (emul f k) = pi f * k) ->
  map pi (map (quad q0 q1 q2 q3 q4 q5) cs)
  = map (fun r => rowdot r [pi q0; pi q1; pi q2; pi q3; pi q4; pi q5]) (map fit_row cs).
Proof.
  intros Ha Hm. rewrite !map_map. apply map_ext. intros c. unfold quad, second. rewrite !Ha, !Hm.
  unfold rowdot, fit_row. cbn [combine map fold_right fst snd]. unnum. ring.
Qed.
Lemma fit_fields_exact solve q0 q1 q2 q3 q4 q5 cs :
  least_squares solve (map fit_row cs) -> determined (map fit_row cs) ->
  let A := map fit_row cs in let fs := map (quad q0 q1 q2 q3 q4 q5) cs in
  fit_fields solve A fs 1 = Ok q1 /\ fit_fields solve A fs 2 = Ok q2.
Proof.
  intros HS HD A fs. unfold fit_fields, fit1.
  assert (F : forall pi : emf R -> R, (forall f g, pi (eadd f g) = pi f + pi g) -> (forall f k, pi (emul f k) = pi f * k) ->
    solve A (map pi fs) = [pi q0; pi q1; pi q2; pi q3; pi q4; pi q5]).
  { intros pi Ha Hm. unfold fs. rewrite (quad_component pi) by assumption. apply fit_exact; [exact HS|exact HD|reflexivity]. }
  rewrite !F by (intros; reflexivity). cbn [zget bind]. split.
  - destruct q1 as [[? ? ?] [? ? ?]]. reflexivity.
  - destruct q2 as [[? ? ?] [? ? ?]]. reflexivity.
Qed.
Lemma local_quad xi eta n q0 q1 q2 q3 q4 q5 c :
  to_local xi eta n (quad q0 q1 q2 q3 q4 q5 c)
  = quad (to_local xi eta n q0) (to_local xi eta n q1) (to_local xi eta n q2)
         (to_local xi eta n q3) (to_local xi eta n q4) (to_local xi eta n q5) c.
Proof.
  destruct (linear_local xi eta n) as [_ L1].
  assert (La : forall f g, to_local xi eta n (eadd f g) = eadd (to_local xi eta n f) (to_local xi eta n g)).
  { intros f g. assert (M : forall h : emf R, emul h 1 = h) by (clear; intros; vdestr; vunfold; unnum; vsplit; ring).
    rewrite <- (M f) at 1. rewrite <- (M g) at 1. rewrite L1, !M. reflexivity. }
  assert (Lm : forall f k, to_local xi eta n (emul f k) = emul (to_local xi eta n f) k).
  { intros f k. unfold to_local. clear. vdestr; vunfold; unnum; vsplit; ring. }
  unfold quad, second. rewrite !La, !Lm. reflexivity.
Qed.
(* a loop setting sample after sample *)
Lemma set_loop (F : Z -> res (emf R)) n : forall a (s out : ftrace R),
  fold_res (fun out it => bind (F it) (fun x => tr_set out it x)) (zseq a n) s = Ok out -> (0 <= a)%Z ->
  (forall k, (0 <= k < a)%Z -> tr_get out k = tr_get s k) /\
  (forall k, (a <= k < a + Z.of_nat n)%Z -> exists x, F k = Ok x /\ tr_get out k = Ok x).
Proof.
  induction n as [|n IH]; intros a s out H Ha; cbn [zseq fold_res] in H.
  - injection H as <-. split; [reflexivity|]. intros k Hk. lia.
  - destruct (F a) as [x| | |] eqn:EF; cbn [bind] in H; try discriminate.
    destruct (tr_set s a x) as [s'| | |] eqn:ES; cbn [bind] in H; try discriminate.
    destruct (IH (a + 1)%Z s' out H ltac:(lia)) as [I1 I2].
    assert (Hin : (0 <= a < tr_N s)%Z).
    { unfold tr_set in ES. destruct (tr_in s a) eqn:E; [|discriminate]. now apply tr_in_spec in E. }
    assert (Es' : s' = FT (tr_t0 s) (tr_dt s) (lset (tr_f s) (Z.to_nat a) x)).
    { rewrite tr_set_inside in ES by exact Hin. now injection ES as <-. }
    assert (G : forall k, (0 <= k)%Z -> tr_get s' k = if (k =? a)%Z then Ok x else tr_get s k).
    { intros k Hk. subst s'. unfold tr_get, tr_in, tr_N, zget. cbn [tr_f]. rewrite lset_length.
      destruct (Z.eqb_spec k a) as [->|Hn].
      - unfold tr_N in Hin. replace (0 <=? a)%Z with true by (symmetry; apply Z.leb_le; lia).
        replace (a <? Z.of_nat (length (tr_f s)))%Z with true by (symmetry; apply Z.ltb_lt; lia).
        replace (a <? 0)%Z with false by (symmetry; apply Z.ltb_ge; lia). cbn [andb].
        rewrite lset_nth_eq by lia. reflexivity.
      - rewrite lset_nth_neq by lia. reflexivity. }
    split.
    + intros k Hk. rewrite I1 by lia. rewrite G by lia. replace (k =? a)%Z with false by (symmetry; apply Z.eqb_neq; lia). reflexivity.
    + intros k Hk. destruct (Z.eq_dec k a) as [->|Hn].
      * exists x. split; [exact EF|]. rewrite I1 by lia. rewrite G by lia. rewrite Z.eqb_refl. reflexivity.
      * apply I2. lia.
Qed.
Lemma bind_assoc {A B C} (m : res A) (f : A -> res B) (h : B -> res C) : bind (bind m f) h = bind m (fun x => bind (f x) h).
Proof. destruct m; reflexivity. Qed.
Lemma fold_res_ext' {A S} (f g : S -> A -> res S) : (forall s a, f s a = g s a) -> forall l s, fold_res f l s = fold_res g l s.
Proof. intros E. induction l as [|a l IH]; intros s; cbn; [reflexivity|]. rewrite E. destruct (g s a); cbn; auto. Qed.

Lemma cell_rows (s : mesh R) c ref nbh : forall A,
  map_res (fun i => bind (zget (msX s) i) (fun p => Ok (fit_row (vtransform (vsub p ref) (cgXi c) (cgEta c) (cgNormal c))))) nbh = Ok A ->
  exists cs, A = map fit_row cs /\ Forall2 (lcoord s c ref) nbh cs.
Proof.
  induction nbh as [|i l IH]; intros A H; cbn [map_res] in H.
  - injection H as <-. exists []. split; constructor.
  - destruct (zget (msX s) i) as [q| | |] eqn:E; cbn [bind] in H; try discriminate.
    match type of H with bind ?m _ = _ => destruct m as [A'| | |] eqn:E2 end; cbn [bind] in H; try discriminate. injection H as <-.
    destruct (IH A' eq_refl) as (cs & -> & HF). exists (vtransform (vsub q ref) (cgXi c) (cgEta c) (cgNormal c) :: cs).
    split; [reflexivity|]. constructor; [|exact HF]. exists q. auto.
Qed.
Lemma cell_traces (s : mesh R) xi eta n t nbh : forall trs fs,
  map_res (fun i => bind (zget (msA s) i) (fun t => Ok (tr_transform t xi eta n))) nbh = Ok trs ->
  map_res (fun nt => tr_at nt t) trs = Ok fs ->
  exists gs, fs = map (to_local xi eta n) gs /\
    Forall2 (fun i g => exists tr, zget (msA s) i = Ok tr /\ tr_at tr t = Ok g) nbh gs.
Proof.
  induction nbh as [|i l IH]; intros trs fs H H2; cbn [map_res] in H.
  - injection H as <-. cbn in H2. injection H2 as <-. exists []. split; constructor.
  - destruct (zget (msA s) i) as [tr| | |] eqn:E; cbn [bind] in H; try discriminate.
    match type of H with bind ?m _ = _ => destruct m as [ts| | |] eqn:E2 end; cbn [bind] in H; try discriminate. injection H as <-.
    cbn [map_res] in H2. rewrite tr_at_transform in H2. destruct (tr_at tr t) as [g| | |] eqn:E3; cbn [bind] in H2; try discriminate.
    destruct (map_res (fun nt => tr_at nt t) ts) as [fs'| | |] eqn:E4; cbn [bind] in H2; try discriminate. injection H2 as <-.
    destruct (IH ts fs' eq_refl E4) as (gs & -> & HF). exists (g :: gs). split; [reflexivity|]. constructor; [|exact HF]. eauto.
Qed.

Lemma cell_dn_exact solve (s : mesh R) g dA out index k nbh ref c tr j d q0 q3 q4 q5 :
  cell_dn solve s g dA index = Ok out ->
  mesh_neighbours s index = Ok nbh -> zget (msX s) index = Ok ref -> zget g index = Ok c -> zget (msA s) index = Ok tr ->
  right_handed (cgXi c) (cgEta c) (cgNormal c) ->
  (forall cs, Forall2 (lcoord s c ref) nbh cs -> least_squares solve (map fit_row cs) /\ determined (map fit_row cs)) ->
  (0 <= k < msNt s)%Z -> tr_get dA k = Ok d -> maxwell j d ->
  (forall i p tri, In i nbh -> lcoord s c ref i p -> zget (msA s) i = Ok tri ->
     tr_at tri (sample_time tr k) = Ok (eadd (eadd q0 (along j (vadd (vmul (cgXi c) (vx p)) (vmul (cgEta c) (vy p))))) (second q3 q4 q5 p))) ->
  tr_get out k = Ok (along j (cgNormal c)).
Proof.
  intros H Hnb Href Hc Htr HR HD Hk Hd HM HF. unfold cell_dn in H. rewrite Hnb, Href, Hc, Htr in H. cbn [bind] in H.
  destruct (24 <? Z.of_nat (length nbh))%Z; [discriminate|]. cbn [bind] in H.
  match type of H with bind ?m _ = _ => destruct m as [A| | |] eqn:EA end; cbn [bind] in H; try discriminate.
  match type of H with bind ?m _ = _ => destruct m as [trs| | |] eqn:ET end; cbn [bind] in H; try discriminate.
  destruct (cell_rows s c ref nbh A EA) as (cs & EAc & HC).
  rewrite (fold_res_ext' _ (fun out it => bind
      (bind (tr_time tr it) (fun t => bind (map_res (fun nt => tr_at nt t) trs) (fun fs =>
        bind (fit_fields solve A fs 1) (fun gx => bind (fit_fields solve A fs 2) (fun gy =>
        bind (tr_get (tr_transform dA (cgXi c) (cgEta c) (cgNormal c)) it) (fun gt =>
        Ok (from_local (cgXi c) (cgEta c) (cgNormal c) (normal_derivative gx gy gt))))))))
      (fun x => tr_set out it x))) in H.
  2: { intros o it. rewrite !bind_assoc. destruct (tr_time tr it); cbn [bind]; [|reflexivity..].
       rewrite !bind_assoc. destruct (map_res _ trs); cbn [bind]; [|reflexivity..].
       rewrite !bind_assoc. destruct (fit_fields solve A a0 1); cbn [bind]; [|reflexivity..].
       rewrite !bind_assoc. destruct (fit_fields solve A a0 2); cbn [bind]; [|reflexivity..].
       rewrite !bind_assoc. destruct (tr_get _ it); cbn [bind]; reflexivity. }
  apply set_loop in H; [|lia]. destruct H as [_ H]. destruct (H k ltac:(lia)) as (x & Hx & Ho). rewrite Ho. f_equal. clear H Ho.
  destruct (tr_time tr k) as [t| | |] eqn:Et; cbn [bind] in Hx; try discriminate.
  assert (t = sample_time tr k) as ->.
  { unfold tr_time in Et. destruct (tr_in tr k) eqn:Ei; [|discriminate]. injection Et as <-. reflexivity. }
  destruct (map_res (fun nt => tr_at nt (sample_time tr k)) trs) as [fs| | |] eqn:Ef; cbn [bind] in Hx; try discriminate.
  destruct (cell_traces s (cgXi c) (cgEta c) (cgNormal c) (sample_time tr k) nbh trs fs ET Ef) as (gs & -> & HG).
  assert (Egs : gs = map (quad q0 (along j (cgXi c)) (along j (cgEta c)) q3 q4 q5) cs).
  { clear - HC HG HF. revert cs gs HC HG. induction nbh as [|i l IH]; intros cs gs HC HG; inversion HC; subst; inversion HG; subst; [reflexivity|].
    cbn [map]. f_equal.
    - match goal with Hq : exists _, _ |- _ => destruct Hq as (tri & T1 & T2) end.
      match goal with Hq : lcoord _ _ _ i ?p |- _ => specialize (HF i p tri (or_introl eq_refl) Hq T1) end. rewrite T2 in HF. injection HF as ->.
      unfold quad. f_equal. clear. unfold along. destruct j as [[? ?] [? ?] [? ?]]. cbn [jx jy jz]. generalize (cgXi c) (cgEta c). intros. vdestr; vunfold; unnum; vsplit; ring.
    - apply IH; try assumption. intros i' p tri Hi. apply HF. now right. }
  subst gs. rewrite map_map in Hx.
  set (L := to_local (cgXi c) (cgEta c) (cgNormal c)) in *.
  rewrite (map_ext (fun a => L (quad q0 (along j (cgXi c)) (along j (cgEta c)) q3 q4 q5 a))
    (quad (L q0) (L (along j (cgXi c))) (L (along j (cgEta c))) (L q3) (L q4) (L q5))
    (fun a => local_quad (cgXi c) (cgEta c) (cgNormal c) q0 (along j (cgXi c)) (along j (cgEta c)) q3 q4 q5 a)) in Hx.
  subst A. destruct (fit_fields_exact solve (L q0) (L (along j (cgXi c))) (L (along j (cgEta c))) (L q3) (L q4) (L q5) cs (proj1 (HD cs HC)) (proj2 (HD cs HC))) as [F1 F2].
  cbv zeta in F1, F2. rewrite F1, F2 in Hx. cbn [bind] in Hx.
  assert (Eg : tr_get (tr_transform dA (cgXi c) (cgEta c) (cgNormal c)) k = Ok (L d)).
  { unfold tr_get, tr_in, tr_N in Hd |- *. unfold tr_transform. cbn [tr_f]. rewrite map_length.
    destruct ((0 <=? k)%Z && (k <? Z.of_nat (length (tr_f dA)))%Z); [|discriminate]. rewrite zget_map, Hd. reflexivity. }
  rewrite Eg in Hx. cbn [bind] in Hx. injection Hx as <-. now apply normal_derivative_global.
Qed.
