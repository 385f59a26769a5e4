(* Proofs about the selection of probe particles. *)
From Coq Require Import ZArith List Lia Bool Permutation.
From Verif Require Import Base BaseFacts Num VecModel ParticleModel ParticleSpec BunchModel BunchSpec BeamSpec.
Import ListNotations.
Local Open Scope nat_scope.

(* ---- the order ---- *)
Lemma flat_map_app_perm {A B} (f g : A -> list B) l :
  Permutation (flat_map (fun x => f x ++ g x) l) (flat_map f l ++ flat_map g l).
Proof.
  induction l as [|x l IH]; [constructor|]. cbn [flat_map].
  rewrite <- !app_assoc. apply Permutation_app_head.
  transitivity (g x ++ flat_map f l ++ flat_map g l); [apply Permutation_app_head; exact IH|].
  rewrite !app_assoc. apply Permutation_app_tail. apply Permutation_app_comm.
Qed.
Lemma column_all {A} (b : list A) : forall K, length b <= K -> flat_map (fun i => opt_list (nth_error b i)) (seq 0 K) = b.
Proof.
  intros K. revert b. induction K as [|K IH]; intros b H.
  - destruct b; [reflexivity|cbn in H; lia].
  - cbn [seq flat_map]. rewrite <- seq_shift, flat_map_concat_map, map_map, <- flat_map_concat_map.
    destruct b as [|a b].
    + cbn. clear. induction (seq 0 K) as [|x l IH]; [reflexivity|]. cbn. destruct x; exact IH.
    + cbn [nth_error opt_list app]. f_equal. apply IH. cbn in H. lia.
Qed.
Lemma longest_cons {A} (b : list A) bs : longest (b :: bs) = Nat.max (length b) (longest bs).
Proof. reflexivity. Qed.
Lemma rows_perm {A} (bs : list (list A)) : forall K, longest bs <= K -> Permutation (flat_map (row bs) (seq 0 K)) (concat bs).
Proof.
  induction bs as [|b bs IH]; intros K H.
  - cbn. induction (seq 0 K) as [|x l IHl]; [constructor|exact IHl].
  - rewrite longest_cons in H. cbn [concat].
    change (row (b :: bs)) with (fun i => opt_list (nth_error b i) ++ row bs i).
    rewrite flat_map_app_perm. rewrite column_all by lia. apply Permutation_app_head. apply IH. lia.
Qed.
Lemma round_robin_perm {A} (bs : list (list A)) : Permutation (round_robin bs) (concat bs).
Proof. apply rows_perm. lia. Qed.
Lemma row_above {A} (bs : list (list A)) i : longest bs <= i -> row bs i = [].
Proof.
  induction bs as [|b bs IH]; intros H; [reflexivity|]. rewrite longest_cons in H.
  change (row (b :: bs) i) with (opt_list (nth_error b i) ++ row bs i). rewrite IH by lia.
  rewrite (proj2 (nth_error_None b i)) by lia. reflexivity.
Qed.

(* ---- the cells visited by the loop ---- *)
Section P.
Context {T : Type} {NT : Num T}.
Variable bs : list (bunch T).
Definition cell (ib ii : nat) : list (particle T) :=
  match nth_error bs ib with Some b => opt_list (nth_error b ii) | None => [] end.
Fixpoint visit (f ib ii : nat) : list (particle T) :=
  match f with
  | O => []
  | S f => cell ib ii ++ (if S ib =? length bs then visit f 0 (S ii) else visit f (S ib) ii)
  end.

Lemma probe_visit : forall f n N ib ii, ib < length bs ->
  probe_loop f bs (Z.of_nat (N + n)) (Z.of_nat N) (Z.of_nat ib) (Z.of_nat ii) =
  if n <=? length (visit f ib ii) then Ok (flat_map bufferProbe (firstn n (visit f ib ii))) else Loop.
Proof.
  induction f as [|f IH]; intros n N ib ii Hib.
  - cbn [probe_loop visit length]. destruct (Z.ltb_spec (Z.of_nat N) (Z.of_nat (N + n))).
    + destruct (Nat.leb_spec n 0); [lia|reflexivity].
    + destruct (Nat.leb_spec n 0); [|lia]. replace n with 0 by lia. reflexivity.
  - cbn [probe_loop]. destruct (Z.ltb_spec (Z.of_nat N) (Z.of_nat (N + n))).
    2:{ replace n with 0 by lia. reflexivity. }
    destruct (zget_ok bs (Z.of_nat ib)) as (b & G & Gn); [lia|]. rewrite G. cbn [bind]. rewrite Nat2Z.id in Gn.
    cbn [visit].
    assert (CE : cell ib ii = opt_list (nth_error b ii)) by (unfold cell; rewrite Gn; reflexivity). rewrite CE.
    assert (NX : forall n' N', probe_loop f bs (Z.of_nat (N' + n')) (Z.of_nat N')
         (fst (if (Z.of_nat ib + 1 =? Z.of_nat (length bs))%Z then (0%Z, (Z.of_nat ii + 1)%Z) else ((Z.of_nat ib + 1)%Z, Z.of_nat ii)))
         (snd (if (Z.of_nat ib + 1 =? Z.of_nat (length bs))%Z then (0%Z, (Z.of_nat ii + 1)%Z) else ((Z.of_nat ib + 1)%Z, Z.of_nat ii))) =
       let v := if S ib =? length bs then visit f 0 (S ii) else visit f (S ib) ii in
       if n' <=? length v then Ok (flat_map bufferProbe (firstn n' v)) else Loop).
    { intros n' N'. destruct (Nat.eqb_spec (S ib) (length bs)) as [E|E];
        destruct (Z.eqb_spec (Z.of_nat ib + 1) (Z.of_nat (length bs))); try lia; cbn [fst snd].
      - replace (Z.of_nat ii + 1)%Z with (Z.of_nat (S ii)) by lia. change 0%Z with (Z.of_nat 0). apply IH. lia.
      - replace (Z.of_nat ib + 1)%Z with (Z.of_nat (S ib)) by lia. apply IH. lia. }
    cbv zeta in NX. unfold bunch_NOP.
    destruct (Z.ltb_spec (Z.of_nat ii) (Z.of_nat (length b))) as [L|L].
    + destruct (zget_ok b (Z.of_nat ii)) as (p & P & Pn); [lia|]. rewrite P. cbn [bind]. rewrite Nat2Z.id in Pn.
      rewrite Pn. cbn [opt_list app length]. destruct n as [|n]; [lia|].
      replace (Z.of_nat N + 1)%Z with (Z.of_nat (S N)) by lia.
      replace (N + S n) with (S N + n) by lia. rewrite NX.
      cbn [Nat.leb]. destruct (n <=? _); [|reflexivity]. cbn [bind firstn flat_map]. reflexivity.
    + rewrite (proj2 (nth_error_None b ii)) by lia. cbn [opt_list app]. apply NX.
Qed.

(* where the loop is after f rounds *)
Lemma visit_row : forall m ib ii f, ib + m = length bs -> 0 < m ->
  visit (m + f) ib ii = flat_map (fun b => opt_list (nth_error b ii)) (skipn ib bs) ++ visit f 0 (S ii).
Proof.
  induction m as [|m IH]; intros ib ii f H Hm; [lia|]. cbn [Nat.add visit].
  assert (Hib : ib < length bs) by lia. unfold cell at 1.
  destruct (nth_error bs ib) as [b|] eqn:E; [|apply nth_error_None in E; lia].
  assert (SK : skipn ib bs = b :: skipn (S ib) bs).
  { clear -E. revert ib E. generalize bs. induction bs0 as [|x l IHl]; intros [|ib] E; try discriminate; cbn in *; [congruence|]. rewrite (IHl _ E). reflexivity. }
  rewrite SK. cbn [flat_map]. rewrite <- app_assoc. f_equal.
  destruct (Nat.eqb_spec (S ib) (length bs)) as [E1|E1].
  - replace m with 0 by lia. cbn [Nat.add]. rewrite skipn_all2 by lia. reflexivity.
  - apply IH; lia.
Qed.
Lemma visit_rows : 0 < length bs -> forall k ii, visit (length bs * k) 0 ii = flat_map (row bs) (seq ii k).
Proof.
  intros H. induction k as [|k IH]; intros ii.
  - rewrite Nat.mul_0_r. reflexivity.
  - replace (length bs * S k) with (length bs + length bs * k) by lia.
    rewrite visit_row by lia. cbn [skipn seq flat_map]. rewrite IH. reflexivity.
Qed.
Lemma visit_prefix : forall f g ib ii, f <= g -> length (visit f ib ii) <= length (visit g ib ii).
Proof.
  induction f as [|f IH]; intros [|g] ib ii H; try lia; [cbn; lia|]. cbn [visit]. rewrite !app_length.
  destruct (S ib =? length bs); [specialize (IH g 0 (S ii))|specialize (IH g (S ib) ii)]; lia.
Qed.
Lemma rows_enough K : longest bs <= K -> flat_map (row bs) (seq 0 K) = round_robin bs.
Proof.
  intros H. replace K with (longest bs + (K - longest bs)) by lia. rewrite seq_app, flat_map_app.
  unfold round_robin. rewrite <- app_nil_r. f_equal. cbn [Nat.add].
  assert (G : forall i n, longest bs <= i -> flat_map (row bs) (seq i n) = []).
  { intros i n. revert i. induction n as [|n IHn]; intros i Hi; [reflexivity|]. cbn [seq flat_map].
    rewrite row_above by lia. apply IHn. lia. }
  apply G. lia.
Qed.
Lemma visit_total f : 0 < length bs -> length (visit f 0 0) <= length (concat bs).
Proof.
  intros H. rewrite <- (Permutation_length (round_robin_perm bs)).
  rewrite <- (rows_enough (longest bs + f)) by lia. rewrite <- visit_rows by exact H.
  apply visit_prefix. nia.
Qed.
End P.

Section Q.
Context {T : Type} {NT : Num T}.
Lemma probe_ok (bm : beam T) n : n <= length (concat (bmB bm)) ->
  beam_bufferProbe bm (Z.of_nat n) = Ok (flat_map bufferProbe (firstn n (round_robin (bmB bm)))).
Proof.
  intros H. unfold beam_bufferProbe. destruct (bmB bm) as [|b bs'] eqn:E.
  - cbn in H. replace n with 0 by lia. reflexivity.
  - rewrite <- E in *. assert (0 < length (bmB bm)) by (rewrite E; cbn; lia).
    change 0%Z with (Z.of_nat 0). change (Z.of_nat n) with (Z.of_nat (0 + n)). rewrite probe_visit by lia.
    assert (V : visit (bmB bm) (probe_fuel (bmB bm)) 0 0 = round_robin (bmB bm)).
    { unfold probe_fuel. fold (longest (bmB bm)). rewrite visit_rows by lia. apply rows_enough. lia. }
    rewrite V. rewrite (Permutation_length (round_robin_perm (bmB bm))).
    destruct (Nat.leb_spec n (length (concat (bmB bm)))); [reflexivity|lia].
Qed.
Lemma probe_endless (bm : beam T) n fuel : length (concat (bmB bm)) < n -> bmB bm <> [] ->
  probe_loop fuel (bmB bm) (Z.of_nat n) 0 0 0 = Loop.
Proof.
  intros H Hb. assert (0 < length (bmB bm)) by (destruct (bmB bm); [contradiction|cbn; lia]).
  change 0%Z with (Z.of_nat 0). change (Z.of_nat n) with (Z.of_nat (0 + n)). rewrite probe_visit by lia.
  pose proof (visit_total (bmB bm) fuel H0). destruct (Nat.leb_spec n (length (visit (bmB bm) fuel 0 0))); [lia|reflexivity].
Qed.
Lemma probe_no_bunch (bm : beam T) n fuel : bmB bm = [] -> (0 < n)%Z -> probe_loop (S fuel) (bmB bm) n 0 0 0 = UB.
Proof. intros -> H. cbn. destruct (Z.ltb_spec 0 n); [reflexivity|lia]. Qed.
End Q.
