(* Proofs about the distributed tracking. *)
From Coq Require Import ZArith List Lia Bool.
From Verif Require Import Base BaseFacts Num VecModel ParticleModel ParticleSpec ParticleProofs ParticleProofs2
  TraceProofs2 BunchModel BunchSpec BeamSpec BeamProofs DistProofs DriverModel DriverSpec.
Import ListNotations.
Local Open Scope Z_scope.
Local Open Scope res_scope.

(* ---- outcomes ---- *)
Lemma same_bind {A B C D} (R : A -> B -> Prop) (S' : C -> D -> Prop) a b f g :
  same_outcome R a b -> (forall x y, R x y -> same_outcome S' (f x) (g y)) ->
  same_outcome S' (bind a f) (bind b g).
Proof. destruct a, b; cbn; intros H1 H2; try contradiction; auto. Qed.
Lemma same_eq {A} (a b : res A) : a = b -> same_outcome eq a b.
Proof. intros ->. destruct b; reflexivity || exact I. Qed.

Lemma outcome_each {A} (f : A -> res A) l : outcome (each f l) = map_res f l.
Proof.
  induction l as [|a l IH]; [reflexivity|]. cbn [each map_res]. destruct (f a) as [x| | |]; try reflexivity.
  cbn [bind]. rewrite <- IH. unfold outcome. destruct (each f l) as [r o]. cbn [fst snd].
  destruct o; reflexivity.
Qed.

Lemma map_res_same {A B C D} (R : B -> D -> Prop) (f : A -> res B) (g : C -> res D) : forall l m,
  Forall2 (fun x y => same_outcome R (f x) (g y)) l m ->
  same_outcome (Forall2 R) (map_res f l) (map_res g m).
Proof.
  intros l m H. induction H as [|x y l m H0 H IH]; [constructor|]. cbn [map_res].
  eapply same_bind; [exact H0|]. intros u v Huv. eapply same_bind; [exact IH|].
  intros us vs Huvs. cbn. constructor; assumption.
Qed.

Lemma forall2_length {A B} (R : A -> B -> Prop) l m : Forall2 R l m -> length l = length m.
Proof. induction 1; cbn; congruence. Qed.

(* ---- chunks ---- *)
Lemma skipn_skipn {A} : forall m n (l : list A), skipn n (skipn m l) = skipn (n + m) l.
Proof.
  induction m as [|m IH]; intros n l; [rewrite Nat.add_0_r; reflexivity|].
  destruct l as [|x l]; [rewrite !skipn_nil; reflexivity|].
  replace (n + S m)%nat with (S (n + m)) by lia. cbn [skipn]. apply IH.
Qed.
Lemma chunk_concat {A} (m : nat) : forall P (l : list A), (length l <= P * m)%nat ->
  concat (map (fun r => chunk m r l) (seq 0 P)) = l.
Proof.
  induction P as [|P IH]; intros l H.
  - destruct l; [reflexivity|cbn in H; lia].
  - rewrite <- cons_seq, <- seq_shift, map_cons, map_map. cbn [concat].
    erewrite map_ext with (g := fun r => chunk m r (skipn m l)).
    2:{ intros r. unfold chunk. rewrite skipn_skipn. f_equal. f_equal. lia. }
    rewrite IH.
    + unfold chunk. cbn. apply firstn_skipn.
    + rewrite skipn_length. lia.
Qed.
Lemma skipn_map {A B} (f : A -> B) n l : skipn n (map f l) = map f (skipn n l).
Proof. revert l. induction n as [|n IH]; intros [|x l]; cbn; auto. Qed.
Lemma chunk_map {A B} (f : A -> B) m r l : chunk m r (map f l) = map f (chunk m r l).
Proof. unfold chunk. rewrite skipn_map, firstn_map. reflexivity. Qed.
Lemma chunk_length {A} m r (l : list A) : (length (chunk m r l) <= m)%nat.
Proof. unfold chunk. apply firstn_le_length. Qed.

(* mapping chunk by chunk *)
Lemma map_res_app {A B} (f : A -> res B) l l' :
  map_res f (l ++ l') = bind (map_res f l) (fun a => bind (map_res f l') (fun b => Ok (a ++ b))).
Proof.
  induction l as [|x l IH]; cbn [app map_res bind].
  - destruct (map_res f l'); reflexivity.
  - destruct (f x); try reflexivity. cbn [bind]. rewrite IH. destruct (map_res f l); try reflexivity.
    cbn [bind]. destruct (map_res f l'); reflexivity.
Qed.
Lemma map_res_len {A B} (f : A -> res B) l l' : map_res f l = Ok l' -> length l' = length l.
Proof.
  revert l'. induction l as [|x l IH]; intros l' H; cbn [map_res] in H; [injection H as <-; reflexivity|].
  bget H as y Hy. bget H as ys Hys. injection H as <-. cbn. f_equal. auto.
Qed.
Lemma map_res_chunks {A B} (f : A -> res B) m : forall P l, (length l <= P * m)%nat ->
  same_outcome (fun l' cs => length l' = length l /\ cs = map (fun r => chunk m r l') (seq 0 P))
    (map_res f l) (map_res (fun r => map_res f (chunk m r l)) (seq 0 P)).
Proof.
  induction P as [|P IH]; intros l H.
  - destruct l; [split; reflexivity|cbn in H; lia].
  - rewrite <- cons_seq. cbn [map_res]. change (chunk m 0 l) with (firstn m l).
    assert (E : map_res (fun r => map_res f (chunk m r l)) (seq 1 P) =
                map_res (fun r => map_res f (chunk m r (skipn m l))) (seq 0 P)).
    { rewrite <- seq_shift. generalize (seq 0 P). clear. induction l0 as [|r s IHs]; [reflexivity|].
      cbn [map map_res]. rewrite IHs.
      replace (chunk m (S r) l) with (chunk m r (skipn m l)); [reflexivity|].
      unfold chunk. rewrite skipn_skipn. f_equal. f_equal. lia. }
    rewrite E. rewrite <- (firstn_skipn m l) at 1. rewrite map_res_app.
    destruct (map_res f (firstn m l)) as [a| | |] eqn:Ea; try exact I; try reflexivity. cbn [bind].
    assert (L : (length (skipn m l) <= P * m)%nat) by (rewrite skipn_length; lia).
    specialize (IH (skipn m l) L).
    destruct (map_res f (skipn m l)) as [b| | |] eqn:Eb, (map_res _ (seq 0 P)) as [c| | |]; cbn in IH;
      try contradiction; cbn [bind same_outcome]; auto.
    destruct IH as [Lb ->]. pose proof (map_res_len _ _ _ Ea) as La.
    assert (TL : length (a ++ b) = length l).
    { rewrite app_length, La, Lb, <- app_length, firstn_skipn. reflexivity. }
    split; [exact TL|]. rewrite <- seq_shift, map_cons, map_map.
    destruct (Nat.le_gt_cases m (length l)) as [G|G].
    + assert (La' : length a = m) by (rewrite La, firstn_length_le by lia; reflexivity).
      f_equal.
      * unfold chunk. cbn. rewrite <- La', firstn_app, Nat.sub_diag, firstn_all. cbn. rewrite app_nil_r. reflexivity.
      * apply map_ext. intros r. unfold chunk. replace (S r * m)%nat with (length a + r * m)%nat by lia.
        rewrite skipn_app, (skipn_all2 a) by lia. cbn [app].
        replace (length a + r * m - length a)%nat with (r * m)%nat by lia. reflexivity.
    + assert (b = []) as ->.
      { rewrite (skipn_all2 l) in Lb by lia. destruct b; [reflexivity|discriminate]. }
      rewrite app_nil_r in *. f_equal.
      * unfold chunk. cbn. rewrite firstn_all2 by lia. reflexivity.
      * apply map_ext. intros r. unfold chunk. rewrite (skipn_nil), firstn_nil.
        rewrite (skipn_all2 a) by (cbn; lia). rewrite firstn_nil. reflexivity.
Qed.

(* ---- buffers ---- *)
Lemma buf_read_ok {T} (vs : list T) rest : buf_read (length vs) (map Some vs ++ rest) = Ok vs.
Proof. induction vs as [|v vs IH]; [reflexivity|]. cbn. rewrite IH. reflexivity. Qed.
Lemma buf_write_ok {T} (vs : list T) b : (length vs <= length b)%nat ->
  buf_write vs b = Ok (map Some vs ++ skipn (length vs) b).
Proof. intros H. unfold buf_write. destruct (Nat.leb_spec (length vs) (length b)); [reflexivity|lia]. Qed.

Lemma firstn_app_ge {A} (a b : list A) n : (length a <= n)%nat -> firstn n (a ++ b) = a ++ firstn (n - length a) b.
Proof. intros H. rewrite firstn_app. rewrite firstn_all2 by lia. reflexivity. Qed.

Section D.
Context {T : Type} {NT : Num T}.
Implicit Types (p q : particle T) (bm : beam T).

Lemma psteps_length (l : list (particle T)) : length (flat_map particle_step l) = (10 * length l)%nat.
Proof. apply bunch_step_length. Qed.

(* the gathered buffer starts with the data of all particles *)
Lemma gather_ok m : forall (bufs : list (buffer T)) (l : list (particle T)),
  (length l <= length bufs * m)%nat ->
  (forall r b, nth_error bufs r = Some b ->
     exists tail, b = map Some (flat_map particle_step (chunk m r l)) ++ tail /\ length b = (10 * m)%nat) ->
  exists rest, concat bufs = map Some (flat_map particle_step l) ++ rest.
Proof.
  induction bufs as [|b bufs IH]; intros l HL H.
  - destruct l; [exists []; reflexivity|cbn in HL; lia].
  - destruct (H 0%nat b eq_refl) as (tail & Eb & Lb). change (chunk m 0 l) with (firstn m l) in Eb.
    cbn [concat]. destruct (Nat.le_gt_cases m (length l)) as [G|G].
    + assert (tail = []) as ->.
      { apply (f_equal (@length _)) in Eb. rewrite app_length, map_length, psteps_length, firstn_length_le in Eb by lia.
        destruct tail; [reflexivity|cbn in Eb; lia]. }
      destruct (IH (skipn m l)) as (rest & E).
      * rewrite skipn_length. cbn in HL. lia.
      * intros r b' Hr. destruct (H (S r) b' Hr) as (tl & E1 & E2). exists tl. split; [|exact E2].
        rewrite E1. f_equal. f_equal. f_equal. unfold chunk. rewrite skipn_skipn. f_equal. f_equal. lia.
      * exists rest. rewrite E, Eb, app_nil_r, app_assoc, <- map_app, <- flat_map_app, firstn_skipn. reflexivity.
    + rewrite firstn_all2 in Eb by lia. exists (tail ++ concat bufs). rewrite Eb, app_assoc. reflexivity.
Qed.

(* ---- recording a step ---- *)
Lemma setStep_fun : forall (src : list (particle T)) (b : bunch T) rest, length src = length b ->
  bunch_setStep b (flat_map particle_step src ++ rest) = Ok (zip_in append_point (map current src) b, rest).
Proof.
  induction src as [|p src IH]; intros [|q b] rest HL; try discriminate; [reflexivity|].
  injection HL as HL. cbn [flat_map]. rewrite <- app_assoc. unfold particle_step at 1.
  cbn [app]. rewrite <- !app_assoc. cbn [bunch_setStep rd bind].
  rewrite rdv_wrv. cbn [bind]. rewrite rdv_wrv. cbn [bind]. rewrite rdv_wrv. cbn [bind].
  rewrite (IH b rest HL). reflexivity.
Qed.
Lemma setBunches_fun : forall (bs : list (bunch T)) (src : list (particle T)) rest, length src = length (concat bs) ->
  beam_setBunches bs (flat_map particle_step src ++ rest) = Ok (spread append_point (map current src) bs, rest).
Proof.
  induction bs as [|b bs IH]; intros src rest HL.
  - destruct src; [reflexivity|discriminate].
  - cbn [concat] in HL. rewrite app_length in HL. cbn [beam_setBunches spread].
    rewrite <- (firstn_skipn (length b) src) at 1. rewrite flat_map_app, <- app_assoc.
    rewrite setStep_fun by (rewrite firstn_length_le by lia; reflexivity). cbn [bind].
    rewrite IH by (rewrite skipn_length; lia). cbn [bind].
    rewrite <- firstn_map, <- skipn_map. reflexivity.
Qed.
Lemma receive_fun (src : list (particle T)) bm rest : length src = length (concat (bmB bm)) ->
  int_min <= bmNOTS bm < int_max ->
  driver_receive (map Some (flat_map particle_step src) ++ rest) bm =
  Ok (BM (spread append_point (map current src) (bmB bm)) (bmNOTS bm + 1) (bmdt bm) (bmTracker bm)).
Proof.
  intros HL HN. unfold driver_receive. rewrite <- HL, <- psteps_length, buf_read_ok. cbn [bind].
  unfold beam_setStep. rewrite <- (app_nil_r (flat_map _ _)), setBunches_fun by exact HL. cbn [bind].
  unfold iadd. rewrite to_int_in by lia. reflexivity.
Qed.

Lemma zip_in_length {C} (f : C -> particle T -> particle T) cs b : length cs = length b -> length (zip_in f cs b) = length b.
Proof. revert b. induction cs as [|c cs IH]; intros [|p b] H; cbn in *; auto. Qed.
Lemma spread_length {C} (f : C -> particle T -> particle T) : forall bs cs, length cs = length (concat bs) ->
  map (@length _) (spread f cs bs) = map (@length _) bs.
Proof.
  induction bs as [|b bs IH]; intros cs H; [reflexivity|]. cbn in *. rewrite app_length in H.
  rewrite zip_in_length by (rewrite firstn_length_le by lia; reflexivity). f_equal. apply IH.
  rewrite skipn_length. lia.
Qed.
Lemma lengths_concat {A} (a b : list (list A)) : map (@length _) a = map (@length _) b -> length (concat a) = length (concat b).
Proof.
  revert b. induction a as [|x a IH]; intros [|y b] H; try discriminate; [reflexivity|].
  cbn in *. injection H as H1 H2. rewrite !app_length. rewrite H1, (IH b H2). reflexivity.
Qed.
Lemma spread_concat {C} (f : C -> particle T -> particle T) : forall bs cs, length cs = length (concat bs) ->
  concat (spread f cs bs) = zip_in f cs (concat bs).
Proof.
  induction bs as [|b bs IH]; intros cs H.
  - destruct cs; [reflexivity|discriminate].
  - cbn in *. rewrite app_length in H. rewrite IH by (rewrite skipn_length; lia).
    rewrite <- (firstn_skipn (length b) cs) at 3.
    assert (G : forall c1 c2 (x : list (particle T)) y, length c1 = length x ->
              zip_in f (c1 ++ c2) (x ++ y) = zip_in f c1 x ++ zip_in f c2 y).
    { clear. induction c1 as [|c c1 IH]; intros c2 [|a x] y H; try discriminate; [reflexivity|].
      cbn. rewrite IH; auto. }
    rewrite G; [reflexivity|]. rewrite firstn_length_le by lia. reflexivity.
Qed.

(* ---- the start of the recorded beam ---- *)
Lemma prep_ok n : 0 <= n -> forall bs : list (bunch T),
  map_res (bunch_preAllocate n) (map bunch_clear bs) =
  Ok (map (map (fun p => mkP (pCharge p) (pMass p) (pqm p) (pdt p) (pqmt2 p) 0 (Some n)
      (pt p) (pX p) (pP p) (pA p) (pE p) (pB p) [] [] [] [] (pVp p) (pVg p))) bs).
Proof.
  intros Hn. induction bs as [|b bs IH]; [reflexivity|]. cbn [map map_res].
  assert (E : bunch_preAllocate n (bunch_clear b) = Ok (map (fun p => mkP (pCharge p) (pMass p) (pqm p) (pdt p) (pqmt2 p) 0 (Some n)
      (pt p) (pX p) (pP p) (pA p) (pE p) (pB p) [] [] [] [] (pVp p) (pVg p)) b)).
  { unfold bunch_preAllocate, bunch_clear. induction b as [|p b IHb]; [reflexivity|]. cbn [map map_res].
    unfold preAllocate at 1. destruct (Z.ltb_spec n 0); [lia|]. cbn [bind]. rewrite IHb. reflexivity. }
  rewrite E. cbn [bind]. rewrite IH. reflexivity.
Qed.
Lemma zip_in_restart n : forall (cs : list (tpoint T)) (b : list (particle T)) (b0 : list (particle T)),
  Forall2 same_but_start b0 b ->
  zip_in append_point cs (map (fun p => mkP (pCharge p) (pMass p) (pqm p) (pdt p) (pqmt2 p) 0 (Some n)
      (pt p) (pX p) (pP p) (pA p) (pE p) (pB p) [] [] [] [] (pVp p) (pVg p)) b) = zip_in (restarted n) cs b0.
Proof.
  intros cs b b0 H. revert cs. induction H as [|p0 p b0 b H0 H IH]; intros [|c cs]; try reflexivity.
  cbn [map zip_in]. rewrite IH. f_equal. unfold append_point, restarted. cbn.
  destruct H0 as (-> & -> & -> & -> & -> & -> & -> & -> & ->). reflexivity.
Qed.
Lemma spread_restart n : forall (bs bs0 : list (bunch T)) (cs : list (tpoint T)),
  map (@length _) bs0 = map (@length _) bs -> Forall2 same_but_start (concat bs0) (concat bs) ->
  spread append_point cs (map (map (fun p => mkP (pCharge p) (pMass p) (pqm p) (pdt p) (pqmt2 p) 0 (Some n)
      (pt p) (pX p) (pP p) (pA p) (pE p) (pB p) [] [] [] [] (pVp p) (pVg p))) bs) = spread (restarted n) cs bs0.
Proof.
  induction bs as [|b bs IH]; intros [|b0 bs0] cs HL HF; try discriminate; [reflexivity|].
  cbn [map] in HL. injection HL as H1 H2. cbn [concat] in HF.
  assert (G : Forall2 same_but_start b0 b /\ Forall2 same_but_start (concat bs0) (concat bs)).
  { apply Forall2_app_inv_l in HF. destruct HF as (u & v & F1 & F2 & E).
    assert (u = b /\ v = concat bs) as [-> ->]; [|auto].
    apply forall2_length in F1. rewrite H1 in F1. clear -E F1.
    revert b E F1. induction u as [|x u IHu]; intros [|y b] E F1; try discriminate; [auto|].
    cbn in E. injection E as -> E. injection F1 as F1. destruct (IHu b E F1) as [-> ->]. auto. }
  destruct G as [G1 G2]. cbn [map spread]. rewrite map_length, <- H1.
  rewrite (zip_in_restart n _ b b0 G1). f_equal. apply IH; assumption.
Qed.

(* ---- distribution ---- *)
Lemma driver_copy_ok n p : 0 <= n -> pNpre p = Some n -> 1 <= pNP p -> driver_copy n p = Ok (no_field p).
Proof.
  intros Hn HP HN. unfold driver_copy, copy_particle. rewrite HP.
  destruct (Z.ltb_spec 0 (pNP p)); [|lia]. unfold preAllocate. destruct (Z.ltb_spec n 0); [lia|].
  unfold no_field. destruct (pNP p <? n); cbn [bind]; rewrite HP; reflexivity.
Qed.
Lemma chunk_loop n (tn : nat) (rank : nat) : 0 <= n -> forall (ps : list (particle T)) (node cnt : nat),
  (cnt < tn)%nat -> Forall (fun p => pNpre p = Some n /\ 1 <= pNP p) ps ->
  driver_chunk (Z.of_nat rank) (Z.of_nat tn) n ps (Z.of_nat node) (Z.of_nat cnt) =
  Ok (map no_field (firstn ((rank + 1) * tn - Nat.max (node * tn + cnt) (rank * tn))
                           (skipn (rank * tn - (node * tn + cnt)) ps))).
Proof.
  intros Hn. induction ps as [|p ps IH]; intros node cnt Hc HF.
  - rewrite skipn_nil, firstn_nil. reflexivity.
  - inversion HF as [|? ? [F1 F2] FF]. subst. cbn [driver_chunk].
    set (nx := if ((Z.of_nat cnt + 1 =? Z.of_nat tn)%Z) then ((node + 1)%nat, 0%nat) else (node, (cnt + 1)%nat)).
    assert (HN : (fst nx * tn + snd nx = node * tn + cnt + 1 /\ snd nx < tn)%nat).
    { unfold nx. destruct (Z.eqb_spec (Z.of_nat cnt + 1) (Z.of_nat tn)); cbn; lia. }
    assert (HE : (if (Z.of_nat cnt + 1 =? Z.of_nat tn) then (Z.of_nat node + 1, 0) else (Z.of_nat node, Z.of_nat cnt + 1))
                 = (Z.of_nat (fst nx), Z.of_nat (snd nx))).
    { unfold nx. destruct (Z.eqb_spec (Z.of_nat cnt + 1) (Z.of_nat tn)); cbn [fst snd]; f_equal; lia. }
    rewrite HE. cbn beta iota. destruct HN as [HN1 HN2]. rewrite (IH _ _ HN2 FF), HN1.
    destruct (Z.eqb_spec (Z.of_nat rank) (Z.of_nat node)) as [E|E].
    + assert (rank = node) by lia. subst rank. rewrite driver_copy_ok by assumption. cbn [bind].
      replace (node * tn - (node * tn + cnt))%nat with 0%nat by lia.
      replace (node * tn - (node * tn + cnt + 1))%nat with 0%nat by lia. cbn [skipn].
      replace ((node + 1) * tn - Nat.max (node * tn + cnt) (node * tn))%nat
        with (S ((node + 1) * tn - Nat.max (node * tn + cnt + 1) (node * tn))) by lia.
      reflexivity.
    + assert (rank <> node) by lia. destruct (Nat.lt_ge_cases rank node) as [G|G].
      * assert (rank * tn + tn <= node * tn)%nat by nia.
        replace ((rank + 1) * tn - Nat.max (node * tn + cnt) (rank * tn))%nat with 0%nat by lia.
        replace ((rank + 1) * tn - Nat.max (node * tn + cnt + 1) (rank * tn))%nat with 0%nat by lia. reflexivity.
      * assert (node * tn + tn <= rank * tn)%nat by nia.
        replace (rank * tn - (node * tn + cnt))%nat with (S (rank * tn - (node * tn + cnt + 1))) by lia.
        cbn [skipn]. f_equal. f_equal. f_equal. lia.
Qed.
Lemma chunk_ok n (tn rank : nat) (ps : list (particle T)) : 0 <= n ->
  (tn = 0%nat -> ps = []) -> Forall (fun p => pNpre p = Some n /\ 1 <= pNP p) ps ->
  driver_chunk (Z.of_nat rank) (Z.of_nat tn) n ps 0 0 = Ok (map no_field (chunk tn rank ps)).
Proof.
  intros Hn H0 HF. destruct tn as [|tn].
  - rewrite (H0 eq_refl). reflexivity.
  - pose proof (chunk_loop n (S tn) rank Hn ps 0 0 ltac:(lia) HF) as H. change (Z.of_nat 0) with 0 in H.
    rewrite H. f_equal. f_equal. unfold chunk. f_equal; [lia|]. f_equal. lia.
Qed.
End D.
