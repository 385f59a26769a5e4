(* Facts about the arithmetic of doubles: every operation gives the rounded exact result as
   long as it does not overflow.  From the axioms on primitive floats of the standard
   library (Coq.Floats) and Flocq's proofs. *)
From Coq Require Import ZArith Reals Floats Lia Lra Bool.
From Flocq Require Import Core Relative.
From Flocq Require Import IEEE754.BinarySingleNaN IEEE754.PrimFloat.
From Verif Require Import Base Num NumFloat.
Local Open Scope R_scope.

(* the real number represented, and the property of being finite *)
Notation flt := Coq.Floats.PrimFloat.float.
Definition FR (x : flt) : R := B2R (Prim2B x).
Definition fin (x : flt) : Prop := BinarySingleNaN.is_finite (Prim2B x) = true.
(* rounding to the nearest double, ties to even, without an upper limit *)
Definition rn (x : R) : R := round radix2 (FLT_exp (-1074) 53) ZnearestE x.
Definition two1024 : R := bpow radix2 1024.
(* unit roundoff *)
Definition ur : R := bpow radix2 (-53).

Lemma fexp_eq : SpecFloat.fexp FloatOps.prec FloatOps.emax = FLT_exp (-1074) 53.
Proof. reflexivity. Qed.
Lemma rn_le x y : x <= y -> rn x <= rn y.
Proof. apply round_le; [apply FLT_exp_valid; reflexivity|apply valid_rnd_N]. Qed.
Lemma rn_0 : rn 0 = 0.
Proof. apply round_0. apply valid_rnd_N. Qed.
Lemma rn_pos x : 0 <= x -> 0 <= rn x.
Proof. intros H. rewrite <- rn_0. apply rn_le. exact H. Qed.
Lemma rn_opp x : rn (- x) = - rn x.
Proof. apply round_NE_opp. Qed.
Lemma rn_abs x : Rabs (rn x) = rn (Rabs x).
Proof. unfold rn. rewrite <- round_NE_abs; [reflexivity|apply FLT_exp_valid; reflexivity]. Qed.
Lemma rn_FR x : rn (FR x) = FR x.
Proof. apply round_generic; [apply valid_rnd_N|]. apply generic_format_B2R. Qed.
(* relative error outside of the subnormal range *)
Lemma rn_err x : bpow radix2 (-1022) <= Rabs x -> Rabs (rn x - x) <= ur * Rabs x.
Proof.
  intros H. pose proof (relative_error_N_FLT radix2 (-1074) 53 ltac:(reflexivity) (fun x => negb (Z.even x)) x H) as E.
  unfold rn, ur. change (/ 2 * bpow radix2 (- (53) + 1)) with (/ 2 * bpow radix2 (-52)) in E.
  assert (Q : / 2 * bpow radix2 (-52) = bpow radix2 (-53)). { change (/ 2) with (bpow radix2 (-1)). rewrite <- bpow_plus. reflexivity. }
  rewrite Q in E. exact E.
Qed.
Lemma rn_err0 x : x = 0 \/ bpow radix2 (-1022) <= Rabs x -> Rabs (rn x - x) <= ur * Rabs x.
Proof. intros [->|H]; [rewrite rn_0, Rminus_0_r, Rabs_R0; lra|apply rn_err; exact H]. Qed.
(* powers of two are doubles, so that rounding stays below them *)
Lemma rn_bpow e : (-1074 <= e)%Z -> rn (bpow radix2 e) = bpow radix2 e.
Proof.
  intros H. apply round_generic; [apply valid_rnd_N|]. apply generic_format_bpow. unfold FLT_exp.
  rewrite Z.max_lub_iff || idtac. lia.
Qed.
Lemma rn_below x e : (-1074 <= e)%Z -> Rabs x <= bpow radix2 e -> Rabs (rn x) <= bpow radix2 e.
Proof. intros He H. rewrite rn_abs, <- (rn_bpow e He). apply rn_le. exact H. Qed.
Lemma small_ok x : Rabs x <= bpow radix2 1023 -> Rabs (rn x) < two1024.
Proof. intros H. apply Rle_lt_trans with (bpow radix2 1023); [apply rn_below; [lia|exact H]|apply bpow_lt; lia]. Qed.
(* integers up to 2^53 *)
Lemma rn_IZR z : (Z.abs z <= 2 ^ 53)%Z -> rn (IZR z) = IZR z.
Proof.
  intros H. apply round_generic; [apply valid_rnd_N|]. destruct (Z.eq_dec (Z.abs z) (2 ^ 53)) as [E|E].
  - assert (Q : IZR z = bpow radix2 53 \/ IZR z = - bpow radix2 53).
    { destruct (Z.abs_eq_or_opp z) as [K|K]; rewrite K in E; [left|right].
      - rewrite E. reflexivity.
      - replace z with (- 2 ^ 53)%Z by lia. rewrite opp_IZR. reflexivity. }
    destruct Q as [-> | ->]; [|apply generic_format_opp]; apply generic_format_bpow; unfold FLT_exp; lia.
  - apply generic_format_FLT. exists (Float radix2 z 0); [unfold F2R; cbn; ring|cbn; lia|cbn; lia].
Qed.

Lemma fin_fexp (x : R) : round radix2 (SpecFloat.fexp FloatOps.prec FloatOps.emax) (round_mode mode_NE) x = rn x.
Proof. reflexivity. Qed.
Lemma add_ok x y : fin x -> fin y -> Rabs (rn (FR x + FR y)) < two1024 -> fin (x + y)%float /\ FR (x + y)%float = rn (FR x + FR y).
Proof.
  intros Fx Fy H. unfold fin, FR in *. rewrite add_equiv.
  pose proof (Bplus_correct _ _ Hprec Hmax mode_NE (Prim2B x) (Prim2B y) Fx Fy) as C. rewrite fin_fexp in C.
  rewrite Rlt_bool_true in C by exact H. destruct C as (C1 & C2 & _). split; assumption.
Qed.
Lemma sub_ok x y : fin x -> fin y -> Rabs (rn (FR x - FR y)) < two1024 -> fin (x - y)%float /\ FR (x - y)%float = rn (FR x - FR y).
Proof.
  intros Fx Fy H. unfold fin, FR in *. rewrite sub_equiv.
  pose proof (Bminus_correct _ _ Hprec Hmax mode_NE (Prim2B x) (Prim2B y) Fx Fy) as C. rewrite fin_fexp in C.
  rewrite Rlt_bool_true in C by exact H. destruct C as (C1 & C2 & _). split; assumption.
Qed.
Lemma mul_ok x y : fin x -> fin y -> Rabs (rn (FR x * FR y)) < two1024 -> fin (x * y)%float /\ FR (x * y)%float = rn (FR x * FR y).
Proof.
  intros Fx Fy H. unfold fin, FR in *. rewrite mul_equiv.
  pose proof (Bmult_correct _ _ Hprec Hmax mode_NE (Prim2B x) (Prim2B y)) as C. rewrite fin_fexp in C.
  rewrite Rlt_bool_true in C by exact H. destruct C as (C1 & C2 & _). rewrite Fx, Fy in C2. split; assumption.
Qed.
Lemma div_ok x y : fin x -> FR y <> 0 -> Rabs (rn (FR x / FR y)) < two1024 -> fin (x / y)%float /\ FR (x / y)%float = rn (FR x / FR y).
Proof.
  intros Fx Ny H. unfold fin, FR in *. rewrite div_equiv.
  pose proof (Bdiv_correct _ _ Hprec Hmax mode_NE (Prim2B x) (Prim2B y) Ny) as C. rewrite fin_fexp in C.
  rewrite Rlt_bool_true in C by exact H. destruct C as (C1 & C2 & _). rewrite Fx in C2. split; assumption.
Qed.
Lemma sqrt_ok x : fin x -> 0 <= FR x -> fin (Coq.Floats.PrimFloat.sqrt x) /\ FR (Coq.Floats.PrimFloat.sqrt x) = rn (R_sqrt.sqrt (FR x)).
Proof.
  intros Fx Hx. unfold fin, FR in *. rewrite sqrt_equiv.
  destruct (Bsqrt_correct _ _ Hprec Hmax mode_NE (Prim2B x)) as (C1 & C2 & _). split; [|exact C1]. rewrite C2.
  destruct (Prim2B x) as [s|s| |s m e B]; try reflexivity; try discriminate Fx. destruct s; [|reflexivity].
  exfalso. cbn in Hx. revert Hx. apply Rlt_not_le. apply F2R_lt_0. reflexivity.
Qed.
Lemma opp_ok x : fin x -> fin (- x)%float /\ FR (- x)%float = - FR x.
Proof. intros F. unfold fin, FR in *. rewrite opp_equiv, is_finite_Bopp, B2R_Bopp. split; [exact F|reflexivity]. Qed.
Lemma abs_ok x : fin x -> fin (Coq.Floats.PrimFloat.abs x) /\ FR (Coq.Floats.PrimFloat.abs x) = Rabs (FR x).
Proof. intros F. unfold fin, FR in *. rewrite abs_equiv, is_finite_Babs, B2R_Babs. split; [exact F|reflexivity]. Qed.
Lemma ltb_ok x y : fin x -> fin y -> Coq.Floats.PrimFloat.ltb x y = Rltb (FR x) (FR y).
Proof.
  intros Fx Fy. rewrite ltb_equiv, Bltb_correct by assumption. fold (FR x). fold (FR y).
  destruct (Rlt_bool_spec (FR x) (FR y)), (Rltb_spec (FR x) (FR y)); try reflexivity; lra.
Qed.
Lemma leb_ok x y : fin x -> fin y -> Coq.Floats.PrimFloat.leb x y = Rleb (FR x) (FR y).
Proof.
  intros Fx Fy. rewrite leb_equiv, Bleb_correct by assumption. fold (FR x). fold (FR y).
  destruct (Rle_bool_spec (FR x) (FR y)), (Rleb_spec (FR x) (FR y)); try reflexivity; lra.
Qed.
Lemma ofZ_ok z : (Z.abs z <= 2 ^ 53)%Z -> fin (f_ofZ z) /\ FR (f_ofZ z) = IZR z.
Proof.
  intros H. unfold f_ofZ. rewrite binary_normalize_equiv. unfold fin, FR.
  fold (B2Prim (binary_normalize FloatOps.prec FloatOps.emax Hprec Hmax mode_NE z 0 false)). rewrite Prim2B_B2Prim.
  pose proof (binary_normalize_correct _ _ Hprec Hmax mode_NE z 0 false) as C. cbv zeta in C. rewrite fin_fexp in C.
  assert (E : F2R (Float radix2 z 0) = IZR z) by (unfold F2R; cbn; ring). rewrite E in C.
  rewrite rn_IZR in C by exact H. rewrite Rlt_bool_true in C.
  - destruct C as (C1 & C2 & _). split; assumption.
  - apply Rle_lt_trans with (IZR (2 ^ 53)); [rewrite <- abs_IZR; apply IZR_le; exact H|]. change (IZR (2 ^ 53)) with (bpow radix2 53). apply bpow_lt. reflexivity.
Qed.
