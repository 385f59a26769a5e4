(* Proofs about the numbers reported by the programs propagate and reflection; see ToolsModel.v *)
From Coq Require Import ZArith String List Lia Lra Bool Reals.
From Flocq Require Import Core.Raux.
From Verif Require Import Base BaseFacts Num VecModel VecFacts RetardModel ElementModel LoggerModel LoggerProofs ObserverProofs3 TraceModel TraceSpec TraceProofs TraceProofs2 FelProofs DriverProofs ObserverModel ObserverSpec ObserverProofs
  ObserverProofs7 SddsModel ParticleModel BunchModel PropagateModel PropagateSpec OutputModel OutputSpec OutputProofs OutputProofs2 OutputProofs3 ToolsModel ToolsSpec ToolsProofs ToolsProofs2.
Import ListNotations.
Local Open Scope R_scope.

(* ---- the peak ---- *)
Definition peak_of (A : list (ftrace R)) (n : nat) (r : Z * R * vec R) : Prop :=
  let '(ip, peak, sp) := r in
  (forall i tr, (i < n)%nat -> nth_error A i = Some tr -> vnorm (tr_poynting tr) <= peak) /\
  ((ip = -1)%Z /\ peak = 0 \/
   exists i tr, ip = Z.of_nat i /\ (i < n)%nat /\ nth_error A i = Some tr /\ sp = tr_poynting tr /\ peak = vnorm sp /\ 0 < peak /\
     forall j tr', (j < i)%nat -> nth_error A j = Some tr' -> vnorm (tr_poynting tr') < peak).
Lemma peak_fold (A : list (ftrace R)) : forall n, (n <= length A)%nat ->
  exists r, fold_res (fun (best : Z * R * vec R) ip => bind (zget A ip) (fun tr =>
      Ok (if nltb (snd (fst best)) (vnorm (tr_poynting tr)) then (ip, vnorm (tr_poynting tr), tr_poynting tr) else best))) (zseq 0 n) ((-1)%Z, 0, vzero) = Ok r /\ peak_of A n r.
Proof.
  induction n as [|n IH]; intros L.
  - exists ((-1)%Z, 0, vzero). split; [reflexivity|]. split; [intros; lia|]. left. auto.
  - destruct IH as (r & E & P); [lia|]. rewrite zseq_snoc, fold_res_app, E. cbn [bind fold_res].
    destruct (nth_error A n) as [tr|] eqn:Hn; [|apply nth_error_None in Hn; lia].
    replace (zget A (Z.of_nat n)) with (Ok tr) by (symmetry; apply zget_nth; exact Hn). cbn [bind].
    destruct r as [[ip peak] sp]. destruct P as [P1 P2]. cbn [fst snd]. eexists. split; [reflexivity|].
    change (nltb peak (vnorm (tr_poynting tr))) with (Rltb peak (vnorm (tr_poynting tr))).
    destruct (Rltb_spec peak (vnorm (tr_poynting tr))) as [C|C].
    + split.
      * intros i tr' Hi Ht. destruct (Nat.eq_dec i n) as [->|]; [rewrite Hn in Ht; injection Ht as <-; lra|].
        specialize (P1 i tr' ltac:(lia) Ht). lra.
      * right. exists n, tr. split; [lia|]. split; [lia|]. split; [exact Hn|]. split; [reflexivity|]. split; [reflexivity|]. split.
        -- destruct P2 as [[_ ->]|(i & t & _ & _ & _ & _ & _ & H & _)]; lra.
        -- intros j tr' Hj Ht. specialize (P1 j tr' Hj Ht). lra.
    + split.
      * intros i tr' Hi Ht. destruct (Nat.eq_dec i n) as [->|]; [rewrite Hn in Ht; injection Ht as <-; lra|]. apply (P1 i tr'); [lia|exact Ht].
      * destruct P2 as [P2|(i & t & Q1 & Q2 & Q3)]; [left; exact P2|right]. exists i, t. split; [exact Q1|]. split; [lia|exact Q3].
Qed.
Lemma peak_spec (s : mesh R) : length (msA s) = length (msX s) -> exists r, mesh_peak s = Ok r /\ peak_of (msA s) (length (msX s)) r.
Proof. intros L. apply peak_fold. lia. Qed.

(* ---- the box ---- *)
Definition widen_all (b : R * R) (vs : list (R * R)) : R * R := fold_left (fun b v => widen b (fst v) (snd v)) vs b.
Lemma widen_spec : forall vs b,
  fst (widen_all b vs) <= fst b /\ snd b <= snd (widen_all b vs) /\
  (forall v, In v vs -> fst (widen_all b vs) <= fst v /\ snd v <= snd (widen_all b vs)) /\
  (fst (widen_all b vs) = fst b \/ exists v, In v vs /\ fst (widen_all b vs) = fst v) /\
  (snd (widen_all b vs) = snd b \/ exists v, In v vs /\ snd (widen_all b vs) = snd v).
Proof.
  induction vs as [|v vs IH]; intros b.
  - cbn. split; [lra|]. split; [lra|]. split; [intros v []|]. split; left; reflexivity.
  - change (widen_all b (v :: vs)) with (widen_all (widen b (fst v) (snd v)) vs).
    destruct (IH (widen b (fst v) (snd v))) as (I1 & I2 & I3 & I4 & I5).
    assert (W1 : fst (widen b (fst v) (snd v)) <= fst b /\ fst (widen b (fst v) (snd v)) <= fst v /\ (fst (widen b (fst v) (snd v)) = fst b \/ fst (widen b (fst v) (snd v)) = fst v)).
    { unfold widen. cbn [fst]. change (@nltb R NumR) with Rltb. destruct (Rltb_spec (fst v) (fst b)); repeat split; try lra; auto. }
    assert (W2 : snd b <= snd (widen b (fst v) (snd v)) /\ snd v <= snd (widen b (fst v) (snd v)) /\ (snd (widen b (fst v) (snd v)) = snd b \/ snd (widen b (fst v) (snd v)) = snd v)).
    { unfold widen. cbn [snd]. change (@nltb R NumR) with Rltb. destruct (Rltb_spec (snd b) (snd v)); repeat split; try lra; auto. }
    split; [lra|]. split; [lra|]. split.
    + intros w [<-|Hw]; [lra|]. apply I3. exact Hw.
    + split.
      * destruct I4 as [E|(w & H1 & H2)]; [|right; exists w; split; [right; exact H1|exact H2]].
        destruct W1 as (_ & _ & [E'|E']); [left; congruence|right; exists v; split; [left; reflexivity|congruence]].
      * destruct I5 as [E|(w & H1 & H2)]; [|right; exists w; split; [right; exact H1|exact H2]].
        destruct W2 as (_ & _ & [E'|E']); [left; congruence|right; exists v; split; [left; reflexivity|congruence]].
Qed.
Definition twice (x : R) : R * R := (x, x).
Lemma box_fold (X : list (vec R)) (A : list (ftrace R)) nt dt d n : mesh_get_dt dt = Ok d -> imul nt d = Ok n ->
  forall (l : list (vec R * ftrace R)) k bx by_ bz bt,
  (forall i it, nth_error l i = Some it -> zget X (k + Z.of_nat i) = Ok (fst it) /\ zget A (k + Z.of_nat i) = Ok (snd it)) ->
  fold_res (fun b ip =>
    let '(bx, by_, bz, bt) := b in
    bind (zget X ip) (fun p => bind (zget A ip) (fun tr => bind (mesh_get_dt dt) (fun d => bind (imul nt d) (fun n =>
    Ok (widen bx (vx p) (vx p), widen by_ (vy p) (vy p), widen bz (vz p) (vz p), widen bt (tr_t0 tr) (nadd (tr_t0 tr) (nZ n)))))))) (zseq k (length l)) (bx, by_, bz, bt)
  = Ok (widen_all bx (map (fun it => twice (vx (fst it))) l), widen_all by_ (map (fun it => twice (vy (fst it))) l),
        widen_all bz (map (fun it => twice (vz (fst it))) l), widen_all bt (map (fun it => (tr_t0 (snd it), tr_t0 (snd it) + IZR n)) l)).
Proof.
  intros Hd Hn. rewrite Hd. cbn [bind]. rewrite Hn. cbn [bind]. induction l as [|it l IH]; intros k bx by_ bz bt H; [reflexivity|].
  cbn [length zseq fold_res]. destruct (H 0%nat it eq_refl) as [H1 H2]. replace (k + Z.of_nat 0)%Z with k in * by lia.
  rewrite H1, H2. cbn [bind]. rewrite IH; [reflexivity|].
  intros i it' E. specialize (H (S i) it' E). replace (k + 1 + Z.of_nat i)%Z with (k + Z.of_nat (S i))%Z by lia. exact H.
Qed.
Lemma box_ok (s : mesh R) dt d n : length (msA s) = length (msX s) -> mesh_get_dt dt = Ok d -> imul (msNt s) d = Ok n ->
  let l := combine (msX s) (msA s) in let b0 := (big, - big) in
  mesh_box s dt = Ok (widen_all b0 (map (fun it => twice (vx (fst it))) l), widen_all b0 (map (fun it => twice (vy (fst it))) l),
        widen_all b0 (map (fun it => twice (vz (fst it))) l), widen_all b0 (map (fun it => (tr_t0 (snd it), tr_t0 (snd it) + IZR n)) l)).
Proof.
  intros L Hd Hn l b0. unfold mesh_box. cbv zeta. replace (length (msX s)) with (length l) by (unfold l; rewrite combine_length; lia).
  apply (box_fold (msX s) (msA s) (msNt s) dt d n Hd Hn l 0 b0 b0 b0 b0). intros i [x tr] E. apply nth_combine in E. destruct E. cbn [fst snd Z.add]. split; apply zget_nth; assumption.
Qed.
Lemma box_inv (s : mesh R) dt b : msX s <> [] -> mesh_box s dt = Ok b -> exists d n, mesh_get_dt dt = Ok d /\ imul (msNt s) d = Ok n.
Proof.
  intros NE H. unfold mesh_box in H. destruct (msX s) as [|x xs] eqn:E; [congruence|]. cbn [length zseq fold_res] in H. bget H as b1 H1.
  bget H1 as p Hp. bget H1 as tr Ht. bget H1 as d Hd. bget H1 as n Hn. eauto.
Qed.
Lemma get_dt_small dt : 0 <= dt < 1 -> mesh_get_dt dt = Ok 0%Z.
Proof.
  intros H. unfold mesh_get_dt. change (nleb (nZ 0) dt) with (Rleb 0 dt). destruct (Rleb_spec 0 dt); [|lra].
  change (nfloor dt) with (Some (Zfloor dt)). rewrite (Zfloor_imp 0 dt); [reflexivity|cbn; lra].
Qed.
