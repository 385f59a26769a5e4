(* Loops over the cells of the FEL grid. *)
From Coq Require Import ZArith Reals List Bool Lia Lra.
From Verif Require Import Base BaseFacts Num VecModel VecFacts ParticleModel BunchModel ElementModel DriverModel FelModel FelSpec.
Import ListNotations.
Local Open Scope Z_scope.

Lemma zset_ok {A} (l : list A) i x : 0 <= i < Z.of_nat (length l) -> zset l i x = Ok (lset l (Z.to_nat i) x).
Proof.
  intros H. unfold zset. destruct (Z.ltb_spec i 0); [lia|]. destruct (Z.leb_spec (Z.of_nat (length l)) i); [lia|]. reflexivity.
Qed.
Lemma zset_ub {A} (l : list A) i x : i < 0 \/ Z.of_nat (length l) <= i -> zset l i x = UB.
Proof.
  intros H. unfold zset. destruct (Z.ltb_spec i 0); [reflexivity|]. destruct (Z.leb_spec (Z.of_nat (length l)) i); [reflexivity|lia].
Qed.
Lemma zget_in {A} (l : list A) i : 0 <= i < Z.of_nat (length l) -> exists a, nth_error l (Z.to_nat i) = Some a /\ zget l i = Ok a.
Proof.
  intros H. destruct (nth_error l (Z.to_nat i)) as [a|] eqn:E.
  - exists a. split; [reflexivity|]. unfold zget. destruct (Z.ltb_spec i 0); [lia|]. rewrite E. reflexivity.
  - exfalso. apply nth_error_None in E. lia.
Qed.
Lemma zget_out {A} (l : list A) i : i < 0 \/ Z.of_nat (length l) <= i -> zget l i = UB.
Proof.
  intros H. unfold zget. destruct (Z.ltb_spec i 0); [reflexivity|]. destruct (nth_error l (Z.to_nat i)) as [a|] eqn:E; [|reflexivity].
  exfalso. assert (Z.to_nat i < length l)%nat by (apply nth_error_Some; congruence). lia.
Qed.

(* a loop in which round number i changes cell i+o only *)
Lemma upd_loop {A} (B : list A -> Z -> res (list A)) (G : Z -> A -> A) (o : Z) (len : nat) : forall n a (l : list A),
  length l = len -> 0 <= a + o -> a + o + Z.of_nat n <= Z.of_nat len ->
  (forall l' i, length l' = len -> a <= i < a + Z.of_nat n -> (forall v, nth_error l' (Z.to_nat (i + o)) = Some v ->
      B l' i = Ok (lset l' (Z.to_nat (i + o)) (G i v)))) ->
  exists r, fold_res B (zseq a n) l = Ok r /\ length r = len /\
    forall k, nth_error r k = if (a + o <=? Z.of_nat k) && (Z.of_nat k <? a + o + Z.of_nat n)
                              then option_map (G (Z.of_nat k - o)) (nth_error l k) else nth_error l k.
Proof.
  induction n as [|n IH]; intros a l Hl H0 H1 HB.
  - exists l. cbn [zseq fold_res]. split; [reflexivity|]. split; [exact Hl|]. intros k.
    destruct (Z.leb_spec (a + o) (Z.of_nat k)); [|reflexivity]. destruct (Z.ltb_spec (Z.of_nat k) (a + o + Z.of_nat 0)); [lia|reflexivity].
  - cbn [zseq fold_res]. destruct (nth_error l (Z.to_nat (a + o))) as [v|] eqn:E; [|exfalso; apply nth_error_None in E; lia].
    rewrite (HB l a Hl ltac:(lia) v E). cbn [bind].
    destruct (IH (a + 1) (lset l (Z.to_nat (a + o)) (G a v))) as (r & R1 & R2 & R3).
    + rewrite lset_length. exact Hl.
    + lia.
    + lia.
    + intros l' i Hl' Hi. apply HB; [exact Hl'|lia].
    + exists r. split; [exact R1|]. split; [exact R2|]. intros k. rewrite R3.
      destruct (Z.leb_spec (a + 1 + o) (Z.of_nat k)); destruct (Z.leb_spec (a + o) (Z.of_nat k)); try lia; cbn [andb].
      * replace (a + 1 + o + Z.of_nat n) with (a + o + Z.of_nat (S n)) by lia.
        rewrite (lset_nth_neq l _ k) by lia. reflexivity.
      * assert (K : k = Z.to_nat (a + o)) by lia. subst k. rewrite lset_nth_eq by lia. rewrite E.
        destruct (Z.ltb_spec (Z.of_nat (Z.to_nat (a + o))) (a + o + Z.of_nat (S n))); [|lia].
        cbn [option_map]. f_equal. f_equal. lia.
      * apply lset_nth_neq. lia.
Qed.

Section Gen.
Context {T : Type} {NT : Num T} {TT : Trans T}.
Local Open Scope num_scope.

Lemma zeros_ok n : (0 <= n)%Z -> exists z, zeros n = Ok z /\ Z.of_nat (length z) = n /\ forall k, (k < length z)%nat -> nth_error z k = Some (nZ 0).
Proof.
  intros H. unfold zeros. destruct (Z.ltb_spec n 0); [lia|]. eexists. split; [reflexivity|]. rewrite repeat_length.
  split; [lia|]. intros k Hk. apply nth_error_repeat. exact Hk.
Qed.
Lemma zeros_neg n : (n < 0)%Z -> zeros n = Throw STDexc.
Proof. intros H. unfold zeros. destruct (Z.ltb_spec n 0); [reflexivity|lia]. Qed.

(* the cells of the new field *)
Definition next_cell (f : fel T) (J : option (list T)) (k : nat) : option T :=
  match k with
  | O => Some (nZ 0)
  | S O => nth_error (feE f) 0
  | S (S m) =>
      match nth_error (feE f) m, nth_error (feE f) k, nth_error (fePrev f) m with
      | Some a, Some b, Some p =>
          match J with
          | None => Some (a + b - p)
          | Some J => match nth_error J (S m) with Some j => Some (a + b - p + feDt f * feDt f * j) | None => None end
          end
      | _, _, _ => None
      end
  end.

Lemma next_field_ok (f : fel T) J : (2 <= feN f)%Z -> Z.of_nat (length (feE f)) = feN f -> Z.of_nat (length (fePrev f)) = feN f ->
  match J with Some J => Z.of_nat (length J) = feN f | None => True end ->
  exists r, next_field f J = Ok r /\ Z.of_nat (length r) = feN f /\ forall k, (Z.of_nat k < feN f)%Z -> nth_error r k = next_cell f J k.
Proof.
  intros HN H1 H2 HJ. unfold next_field. destruct (zeros_ok (feN f) ltac:(lia)) as (z & -> & Hz & Hzk). cbn [bind].
  destruct (zget_in (feE f) 0 ltac:(lia)) as (e0 & E0 & ->). cbn [bind].
  rewrite zset_ok by lia. cbn [bind]. change (Z.to_nat 1) with 1%nat. change (Z.to_nat 0) with 0%nat in E0.
  set (l := lset z 1 e0).
  assert (Hl : length l = length z) by (apply lset_length).
  destruct (upd_loop (fun next i =>
    bind (zget (feE f) (i - 1)) (fun a => bind (zget (feE f) (i + 1)) (fun b => bind (zget (fePrev f) (i - 1)) (fun p =>
    match J with
    | None => zset next (i + 1) (a + b - p)
    | Some J => bind (zget J i) (fun j => zset next (i + 1) (a + b - p + feDt f * feDt f * j))
    end))))
    (fun i v => match next_cell f J (Z.to_nat (i + 1)) with Some x => x | None => v end) 1%Z (length z)
    (Z.to_nat (feN f - 2)) 1%Z l) as (r & R1 & R2 & R3).
  - exact Hl.
  - lia.
  - lia.
  - intros l' i Hl' Hi v Hv.
    destruct (zget_in (feE f) (i - 1) ltac:(lia)) as (a & A1 & ->).
    destruct (zget_in (feE f) (i + 1) ltac:(lia)) as (b & B1 & ->).
    destruct (zget_in (fePrev f) (i - 1) ltac:(lia)) as (p & P1 & ->). cbn [bind].
    destruct (Z.to_nat (i + 1)) as [|[|m]] eqn:EK; [lia|lia|].
    assert (M : Z.to_nat (i - 1) = m) by lia. rewrite M in A1, P1.
    unfold next_cell. rewrite A1, P1, B1. destruct J as [J|].
    + destruct (zget_in J i ltac:(lia)) as (j & J1 & ->). cbn [bind]. replace (Z.to_nat i) with (S m) in J1 by lia. rewrite J1.
      rewrite zset_ok by lia. f_equal. f_equal. exact EK.
    + rewrite zset_ok by lia. rewrite EK. reflexivity.
  - exists r. split; [exact R1|]. split; [lia|]. intros k Hk. rewrite R3.
    destruct (Z.leb_spec (1 + 1) (Z.of_nat k)); cbn [andb].
    + destruct (Z.ltb_spec (Z.of_nat k) (1 + 1 + Z.of_nat (Z.to_nat (feN f - 2)))); [|lia].
      replace (Z.to_nat (Z.of_nat k - 1 + 1)) with k by lia.
      destruct (nth_error l k) as [v|] eqn:E; [|exfalso; apply nth_error_None in E; lia]. cbn [option_map].
      destruct k as [|[|m]]; [lia|lia|]. unfold next_cell.
      destruct (nth_error (feE f) m) as [a|] eqn:A1; [|exfalso; apply nth_error_None in A1; lia].
      destruct (nth_error (feE f) (S (S m))) as [b|] eqn:B1; [|exfalso; apply nth_error_None in B1; lia].
      destruct (nth_error (fePrev f) m) as [p|] eqn:P1; [|exfalso; apply nth_error_None in P1; lia].
      destruct J as [J|]; [|reflexivity].
      destruct (nth_error J (S m)) as [j|] eqn:J1; [|exfalso; apply nth_error_None in J1; lia]. reflexivity.
    + destruct k as [|[|k]]; [| |lia].
      * unfold l. rewrite lset_nth_neq by lia. apply Hzk. lia.
      * unfold l. rewrite lset_nth_eq by lia. cbn [next_cell]. symmetry. exact E0.
Qed.
(* a grid with less than two cells: access outside the grid *)
Lemma next_field_small (f : fel T) J : (0 <= feN f < 2)%Z -> Z.of_nat (length (feE f)) = feN f -> next_field f J = UB.
Proof.
  intros HN H. unfold next_field. destruct (zeros_ok (feN f) ltac:(lia)) as (z & -> & Hz & _). cbn [bind].
  destruct (Z.eq_dec (feN f) 0) as [E|E].
  - rewrite zget_out by lia. reflexivity.
  - destruct (zget_in (feE f) 0 ltac:(lia)) as (e0 & _ & ->). cbn [bind]. rewrite zset_ub by lia. reflexivity.
Qed.

Definition corr_cell (f : fel T) (J : list T) (k : nat) : option T :=
  match nth_error (feE f) k with
  | None => None
  | Some v => if (1 <=? Z.of_nat k)%Z && (Z.of_nat k <=? feN f - 2)%Z
              then match nth_error J k with Some j => Some (v + feDt f * feDt f * j) | None => None end else Some v
  end.
Lemma corrected_ok (f : fel T) J : (2 <= feN f)%Z -> Z.of_nat (length (feE f)) = feN f -> Z.of_nat (length J) = feN f ->
  exists r, corrected f J = Ok r /\ Z.of_nat (length r) = feN f /\ forall k, nth_error r k = corr_cell f J k.
Proof.
  intros HN H1 H2. unfold corrected.
  destruct (upd_loop (fun E i => bind (zget E i) (fun v => bind (zget J i) (fun j => zset E i (v + feDt f * feDt f * j))))
    (fun i v => match nth_error J (Z.to_nat i) with Some j => v + feDt f * feDt f * j | None => v end) 0%Z (length (feE f))
    (Z.to_nat (feN f - 2)) 1%Z (feE f)) as (r & R1 & R2 & R3).
  - reflexivity.
  - lia.
  - lia.
  - intros l' i Hl' Hi v Hv. rewrite Z.add_0_r in *.
    destruct (zget_in l' i ltac:(lia)) as (v' & V1 & ->). rewrite V1 in Hv. injection Hv as ->.
    destruct (zget_in J i ltac:(lia)) as (j & J1 & ->). cbn [bind]. rewrite J1, zset_ok by lia. reflexivity.
  - exists r. split; [exact R1|]. split; [lia|]. intros k. rewrite R3. unfold corr_cell.
    destruct (nth_error (feE f) k) as [v|] eqn:E; [|destruct (_ && _); reflexivity].
    assert (Hk : (k < length (feE f))%nat) by (apply nth_error_Some; congruence).
    rewrite Z.add_0_r. destruct (Z.leb_spec 1 (Z.of_nat k)); cbn [andb]; [|reflexivity].
    destruct (Z.ltb_spec (Z.of_nat k) (1 + Z.of_nat (Z.to_nat (feN f - 2)))); destruct (Z.leb_spec (Z.of_nat k) (feN f - 2)); try lia; try reflexivity.
    cbn [option_map]. rewrite Z.sub_0_r, Nat2Z.id. destruct (nth_error J k) as [j|] eqn:J1; [reflexivity|].
    exfalso. apply nth_error_None in J1. lia.
Qed.

(* the loop of the deposition *)
Lemma deposit_window (f : fel T) J p c : Z.of_nat (length J) = feN f -> (feN f <= int_max)%Z ->
  nrint (behind f (pX p) / feDs f) = Some c -> (int_min + 10 <= c <= int_max - 11)%Z ->
  deposit_at f J p = Throw IOexc \/
  exists J' add, deposit_at f J p = Ok J' /\ length J' = length J /\
    forall i, nth_error J' i = if (Z.abs (Z.of_nat i - c) <=? 10)%Z then option_map (fun v => v + add (Z.of_nat i)) (nth_error J i) else nth_error J i.
Proof.
  intros HJ HN Hc Hr. unfold deposit_at. fold (behind f (pX p)).
  destruct (_ || _); [left; reflexivity|]. right. rewrite Hc.
  assert (E1 : to_int (Some c) = Ok c).
  { unfold to_int, in_int. destruct (Z.leb_spec int_min c); [|lia]. destruct (Z.leb_spec c int_max); [reflexivity|lia]. }
  rewrite E1. cbn [bind].
  assert (E2 : iadd c (-10) = Ok (c - 10)%Z).
  { unfold iadd, to_int, in_int. destruct (Z.leb_spec int_min (c + -10)); [|lia]. destruct (Z.leb_spec (c + -10) int_max); [reflexivity|lia]. }
  assert (E3 : iadd c 11 = Ok (c + 11)%Z).
  { unfold iadd, to_int, in_int. destruct (Z.leb_spec int_min (c + 11)); [|lia]. destruct (Z.leb_spec (c + 11) int_max); [reflexivity|lia]. }
  rewrite E2, E3. cbn [bind].
  set (a := if (c - 10 <? 0)%Z then 0%Z else (c - 10)%Z). set (b := if (feN f <? c + 11)%Z then feN f else (c + 11)%Z).
  assert (Ha : (0 <= a)%Z /\ (c - 10 <= a)%Z /\ (a = 0 \/ a = c - 10)%Z) by (unfold a; destruct (Z.ltb_spec (c - 10) 0); lia).
  assert (Hb : (b <= feN f)%Z /\ (b <= c + 11)%Z /\ (b = feN f \/ b = c + 11)%Z) by (unfold b; destruct (Z.ltb_spec (feN f) (c + 11)); lia).
  clearbody a b.
  match goal with |- context [fold_res ?B _ J] => set (body := B) end.
  set (add := fun i : Z => vdot (vdiv (pA p) (nsqrt (vabs2 (pP p) + nZ 1))) (feEx f) * getCharge p / mode_area f / feDt f * nmu0 * nc * nc *
          nexp (- ((behind f (pX p) - nZ i * feDs f) * (behind f (pX p) - nZ i * feDs f)) / (nZ 2 * (nZ 2 * feDs f * (nZ 2 * feDs f)))) /
          (nZ 2 * nsqrt (nZ 2 * nPi))).
  destruct (Z.leb_spec a b) as [AB|AB].
  - destruct (upd_loop body (fun i v => v + add i) 0%Z (length J) (Z.to_nat (b - a)) a J) as (r & R1 & R2 & R3).
    + reflexivity.
    + lia.
    + lia.
    + intros l' i Hl' Hi v Hv. rewrite Z.add_0_r in *. unfold body.
      destruct (zget_in l' i ltac:(lia)) as (v' & V1 & ->). rewrite V1 in Hv. injection Hv as ->. cbn [bind].
      rewrite zset_ok by lia. reflexivity.
    + exists r, add. split; [exact R1|]. split; [exact R2|]. intros i. rewrite R3. rewrite !Z.add_0_r, Z.sub_0_r.
      destruct (nth_error J i) as [v|] eqn:E.
      * assert (Hi : (i < length J)%nat) by (apply nth_error_Some; congruence).
        destruct (Z.leb_spec a (Z.of_nat i)); destruct (Z.ltb_spec (Z.of_nat i) (a + Z.of_nat (Z.to_nat (b - a))));
          destruct (Z.leb_spec (Z.abs (Z.of_nat i - c)) 10); cbn [andb]; try lia; reflexivity.
      * cbn [option_map]. destruct (_ && _), (_ <=? _)%Z; reflexivity.
  - replace (Z.to_nat (b - a)) with O by lia. cbn [zseq fold_res]. exists J, add. split; [reflexivity|]. split; [reflexivity|].
    intros i. destruct (Z.leb_spec (Z.abs (Z.of_nat i - c)) 10); [|reflexivity].
    destruct (nth_error J i) as [v|] eqn:E; [|reflexivity]. exfalso.
    assert (Hi : (i < length J)%nat) by (apply nth_error_Some; congruence). lia.
Qed.
End Gen.
