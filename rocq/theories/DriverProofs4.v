(* When the computation of the sizes of the buffers overflows. *)
From Coq Require Import ZArith List Lia Bool.
From Verif Require Import Base BaseFacts Num VecModel ParticleModel ParticleSpec ParticleProofs BunchModel BunchSpec BeamSpec
  BeamProofs DistProofs DriverModel DriverSpec DriverProofs DriverProofs2 DriverProofs3.
Import ListNotations.
Local Open Scope Z_scope.

Section Sizes.
Context {T : Type} {NT : Num T}.
Lemma to_int_out x : int_max < x -> to_int (Some x) = UB.
Proof. intros H. unfold to_int, in_int. destruct (Z.leb_spec x int_max); [lia|]. rewrite andb_false_r. reflexivity. Qed.
Lemma driver_sizes_UB P (bm : beam T) : 0 < P ->
  (driver_sizes P bm = UB <-> int_max < count bm + P \/ int_max < 10 * (share (count bm) P * P)).
Proof.
  intros HP. assert (HN : 0 <= count bm) by (unfold count; lia). destruct (share_bounds (count bm) P HN HP) as (S1 & S2 & S3). split.
  - intros H. destruct (Z_lt_le_dec int_max (count bm + P)) as [L|L]; [left; exact L|right].
    destruct (Z_lt_le_dec int_max (10 * (share (count bm) P * P))) as [L2|L2]; [exact L2|].
    rewrite driver_sizes_ok in H by assumption. discriminate.
  - intros H. destruct (Z_lt_le_dec int_max (10 * count bm)) as [L|L]; [apply driver_sizes_overflow; assumption|].
    pose proof dint as [Bmin Bmax]. unfold driver_sizes. rewrite beam_NOP_ok by lia. cbn [bind]. unfold iadd, imul.
    destruct (Z_lt_le_dec int_max (count bm + P)) as [L1|L1]; [rewrite to_int_out by lia; reflexivity|].
    destruct H as [H|H]; [lia|].
    rewrite to_int_in by lia. cbn [bind]. rewrite to_int_in by lia. cbn [bind].
    replace (Z.quot (count bm + P + -1) P) with (share (count bm) P).
    2:{ unfold share. rewrite Z.quot_div_nonneg by lia. reflexivity. }
    cbv zeta. rewrite to_int_in by nia. cbn [bind]. rewrite to_int_out by lia. reflexivity.
Qed.
End Sizes.
