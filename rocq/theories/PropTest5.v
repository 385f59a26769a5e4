(* C92: the program integrate_field in exact arithmetic. *)
From Coq Require Import ZArith Reals Lra Lia List Bool.
From Coquelicot Require Import Coquelicot.
From Verif Require Import Base Num VecModel TraceModel TestModel TestProofs8.
Import ListNotations.
Local Open Scope R_scope.

(* Every bunch of particles with two points each in order of time, every trace: each sample is the
   average of the sum of the fields over the time step around it. The field of a particle (ramp) is
   linear between its two points and zero elsewhere. *)
Theorem C92_trace_samples : forall (b : list (special (T:=R))) t0 dt n,
  0 < dt -> (2 <= Z.of_nat n <= int_max)%Z -> List.Forall (fun s => sp1 s < sp2 s /\ (sp2 s - t0) / dt < 2147483647) b ->
  exists tr, fold_res special_integrate b (tr_new t0 dt n) = Ok tr /\ length (tr_f tr) = n /\
    forall k, (k < n)%nat -> exists f, nth_error (tr_f tr) k = Some f /\
      is_RInt (fun t => fold_right (fun s a => ramp s t + a) 0 b) (t0 + (IZR (Z.of_nat k) - / 2) * dt) (t0 + (IZR (Z.of_nat k) + / 2) * dt) (dt * vx (fE f)).
Proof.
  intros b t0 dt n Hd Hn F. destruct (special_trace b t0 dt n Hd Hn F) as (tr & E & L & V). exists tr. split; [exact E|]. split; [exact L|].
  intros k Hk. destruct (V k Hk) as (f & Nf & Ef). exists f. split; [exact Nf|]. rewrite Ef. apply sum_ramps; [exact Hd|].
  eapply List.Forall_impl; [|exact F]. intros s [H _]. exact H.
Qed.
Print Assumptions C92_trace_samples.
(* In exact arithmetic, too, the program finds all expected values. *)
Theorem C92_integrate_field : @integrate_field_main R NumR = Ok 0%Z.
Proof. exact run_exact. Qed.
Print Assumptions C92_integrate_field.
(* a particle seen from 0 to 1, in samples of width 1/5 *)
Example C92_trace_samples_ex : let b := [SP 0 1 (3 / 2) (1 / 2)] in
  0 < 1 / 5 /\ (2 <= Z.of_nat 8 <= int_max)%Z /\ List.Forall (fun s => sp1 s < sp2 s /\ (sp2 s - 0) / (1 / 5) < 2147483647) b /\ ramp (SP 0 1 (3 / 2) (1 / 2)) (1 / 2) = 1.
Proof.
  cbn zeta. split; [lra|]. split; [unfold int_max; lia|]. split; [constructor; [cbn [sp1 sp2]; lra|constructor]|].
  unfold ramp. cbn [sp1 sp2 spf1 spf2]. destruct (Rle_dec _ _); [|lra]. destruct (Rlt_dec _ _); lra.
Qed.
