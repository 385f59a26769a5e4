From Coq Require Import ZArith List Bool Lia Arith.
From Verif Require Import Base BaseFacts Num VecModel ParticleModel ParticleSpec BunchModel BunchSpec BeamSpec BeamProofs
  DriverModel DriverSpec DriverProofs DriverProofs2 DriverProofs3 ObserverProofs3 ObserverProofs5 LoggerModel LoggerSpec LoggerProofs.
Import ListNotations.
Local Open Scope res_scope.
Local Open Scope nat_scope.

Section P.
Context {T : Type} {NT : Num T} (absBF : bunch T -> T -> T).

(* ---- parameter logger ---- *)
Definition bf_of (freq : option T) (b : bunch T) : T := match freq with Some f => absBF b f | None => nZ 0 end.
Lemma plog_fold bs : forall p, let p' := fold_left (fun p b => plog_update absBF b p) bs p in
  plNOTS p' = match bs with [] => plNOTS p | _ => u32 (plNOTS p + Z.of_nat (length bs)) end /\
  plStep p' = plStep p /\ plFreq p' = plFreq p /\
  plTime p' = plTime p ++ map bunch_avgTime bs /\ plPos p' = plPos p ++ map bunch_avgPosition bs /\
  plBG p' = plBG p ++ map bunch_avgMomentum bs /\ plPosRMS p' = plPosRMS p ++ map bunch_rmsPosition bs /\
  plGamma p' = plGamma p ++ map bunch_avgGamma bs /\
  plBGRMS p' = plBGRMS p ++ map (fun _ => vzero) bs /\ plPosBG p' = plPosBG p ++ map (fun _ => vzero) bs /\
  plBF p' = plBF p ++ map (bf_of (plFreq p)) bs /\ plDelta p' = plDelta p ++ map bunch_delta bs.
Proof.
  induction bs as [|b bs IH]; intros p.
  - cbn [fold_left map]. rewrite !app_nil_r. repeat split; reflexivity.
  - cbn [fold_left]. specialize (IH (plog_update absBF b p)). cbn zeta in IH |- *.
    destruct IH as (H1 & H2 & H3 & H4 & H5 & H6 & H7 & H8 & H9 & H10 & H11 & H12).
    set (p' := fold_left _ bs _) in *. rewrite H1, H2, H3, H4, H5, H6, H7, H8, H9, H10, H11, H12.
    unfold plog_update; cbn [plNOTS plStep plFreq plTime plPos plBG plPosRMS plGamma plBGRMS plPosBG plBF plDelta map].
    rewrite <- !app_assoc. repeat split; try reflexivity.
    destruct bs; [reflexivity|]. unfold u32. rewrite Zplus_mod_idemp_l. f_equal. cbn [length]. lia.
Qed.

Lemma map_res_all {A B} (f : A -> res B) (g : A -> B) l : (forall x, In x l -> f x = Ok (g x)) -> map_res f l = Ok (map g l).
Proof.
  induction l as [|a l IH]; intros H; [reflexivity|]. cbn [map_res map]. rewrite H by (left; reflexivity). cbn [bind].
  rewrite IH by (intros x Hx; apply H; right; exact Hx). reflexivity.
Qed.
Lemma map_seq_nth {A} (l : list A) (d : A) : map (fun i => nth i l d) (seq 0 (length l)) = l.
Proof.
  induction l as [|a l IH]; [reflexivity|]. cbn [length seq map nth]. f_equal. rewrite <- seq_shift, map_map. exact IH.
Qed.
Lemma zget_nth_d {A} (l : list A) (d : A) i : i < length l -> zget l (Z.of_nat i) = Ok (nth i l d).
Proof. intros H. rewrite (zget_nth l i (nth i l d)); [reflexivity|]. apply nth_error_nth'. exact H. Qed.
Lemma zget_map_nth {A B} (f : A -> B) (l : list A) (d : A) i : i < length l -> zget (map f l) (Z.of_nat i) = Ok (f (nth i l d)).
Proof.
  intros H. rewrite (zget_nth_d _ (f d)) by (rewrite map_length; exact H). rewrite map_nth. reflexivity.
Qed.

Definition plog_of (step : Z) (freq : option T) (bs : list (bunch T)) : plog T :=
  PL (Z.of_nat (length bs)) (u32 step) freq (map bunch_avgTime bs) (map bunch_avgPosition bs) (map bunch_avgMomentum bs)
     (map bunch_rmsPosition bs) (map bunch_avgGamma bs) (map (fun _ => vzero) bs) (map (fun _ => vzero) bs)
     (map (bf_of freq) bs) (map bunch_delta bs).
Lemma plog_new_fold step freq bs : (Z.of_nat (length bs) < 2 ^ 32)%Z ->
  fold_left (fun p b => plog_update absBF b p) bs (plog_new step freq) = plog_of step freq bs.
Proof.
  intros HB. destruct (plog_fold bs (plog_new step freq)) as (H1 & H2 & H3 & H4 & H5 & H6 & H7 & H8 & H9 & H10 & H11 & H12).
  destruct (fold_left _ bs _) as [a1 a2 a3 a4 a5 a6 a7 a8 a9 b1 b2 b3]. cbn [plNOTS plStep plFreq plTime plPos plBG plPosRMS plGamma plBGRMS plPosBG plBF plDelta plog_new app] in *.
  unfold plog_of. subst. f_equal. destruct bs; [reflexivity|]. rewrite Z.add_0_l. unfold u32. apply Z.mod_small. lia.
Qed.
Lemma plog_write_of step freq bs : plog_write (plog_of step freq bs) = Ok (map (fun b => parameter_row (bf_of freq b) b) bs).
Proof.
  destruct bs as [|b0 bs']; [reflexivity|]. set (bs := b0 :: bs') in *.
  unfold plog_write. cbn [plog_of plNOTS]. rewrite Nat2Z.id, zseq_seq, map_res_arg.
  rewrite (map_res_all _ (fun i => parameter_row (bf_of freq (nth i bs b0)) (nth i bs b0))).
  - f_equal. rewrite <- (map_seq_nth bs b0) at 2. rewrite map_map. reflexivity.
  - intros i Hi. apply in_seq in Hi. unfold plog_row, plog_of.
    cbn [plTime plPos plBG plGamma plDelta plPosRMS plBF].
    rewrite !(zget_map_nth _ bs b0) by lia. reflexivity.
Qed.

(* ---- loggers of particle data ---- *)
Lemma push_full vals (l : blog T) : Z.of_nat (length vals) = u32 (blNOP l * blNOD l) ->
  blog_push vals l = Ok (BL (u32 (blNOTS l + 1)) (blStep l) (blNOP l) (blNOD l) (blData l ++ [map Some vals])).
Proof.
  intros H. unfold blog_push, buf_new. rewrite <- H, Nat2Z.id. rewrite buf_write_ok by (rewrite repeat_length; lia). cbn [bind].
  rewrite skipn_all2 by (rewrite repeat_length; lia). rewrite app_nil_r. reflexivity.
Qed.
Definition blog_of (step nop nod : Z) (vals : list (list T)) : blog T :=
  BL (Z.of_nat (length vals)) step nop nod (map (map Some) vals).
Lemma buf_read_map (vs : list T) n : n = length vs -> buf_read n (map Some vs) = Ok vs.
Proof. intros ->. rewrite <- (app_nil_r (map Some vs)). apply buf_read_ok. Qed.
Lemma blog_copy_of step nop nod vals : (0 <= nop * nod < 2 ^ 32)%Z ->
  Forall (fun v => Z.of_nat (length v) = (nop * nod)%Z) vals ->
  blog_copy (blog_of step nop nod vals) = Ok (concat vals).
Proof.
  intros HB HF. unfold blog_copy. cbn [blog_of blNOTS blNOD blNOP blData]. rewrite Nat2Z.id, zseq_seq, map_res_arg.
  rewrite (map_res_all _ (fun i => nth i vals [])); [cbn [bind]; rewrite map_seq_nth; reflexivity|].
  intros i Hi. apply in_seq in Hi. rewrite (zget_map_nth _ vals []) by lia. cbn [bind].
  apply buf_read_map. rewrite Forall_forall in HF. specialize (HF (nth i vals []) ltac:(apply nth_In; lia)).
  unfold u32. rewrite (Z.mul_comm nod nop), Z.mod_small by exact HB. lia.
Qed.
Lemma concat_len (c : Z) (vals : list (list T)) : Forall (fun v => Z.of_nat (length v) = c) vals ->
  Z.of_nat (length (concat vals)) = (Z.of_nat (length vals) * c)%Z.
Proof. induction 1 as [|v r H1 H2 IH]; [reflexivity|]. cbn [concat length]. rewrite app_length. lia. Qed.
Lemma blog_write_of step nop nod vals : (0 <= nop * nod < 2 ^ 32)%Z ->
  Forall (fun v => Z.of_nat (length v) = (nop * nod)%Z) vals ->
  blog_write (blog_of step nop nod vals) =
  if (Z.of_nat (length vals) * (nop * nod) <? 2 ^ 32)%Z then Ok (Z.of_nat (length vals), nop, nod, concat vals) else UB.
Proof.
  intros HB HF. unfold blog_write. rewrite blog_copy_of by assumption. cbn [bind blog_of blNOTS blNOD blNOP].
  pose proof (concat_len _ _ HF) as HL. rewrite <- Z.mul_assoc, <- HL. unfold u32, buf_new, buf_write. rewrite repeat_length.
  destruct (Z.ltb_spec (Z.of_nat (length (concat vals))) (2 ^ 32)) as [H|H].
  - rewrite Z.mod_small by lia. rewrite Nat2Z.id, Nat.leb_refl. cbn [bind].
    rewrite buf_read_ok. reflexivity.
  - pose proof (Z.mod_pos_bound (Z.of_nat (length (concat vals))) (2 ^ 32) ltac:(lia)) as B.
    rewrite (proj2 (Nat.leb_gt _ _)) by lia. reflexivity.
Qed.

Lemma wrv_len (v : vec T) : length (wrv v) = 3.
Proof. reflexivity. Qed.
Lemma coordinates_len n (b : bunch T) : n <= length b -> length (coordinates n b) = 6 * n.
Proof.
  intros H. unfold coordinates. rewrite <- (firstn_length_le b H) at 2. generalize (firstn n b). clear.
  induction l as [|p l IH]; [reflexivity|]. cbn [flat_map length]. rewrite app_length, IH. cbn [length]. lia.
Qed.
Lemma coords_are (b : bunch T) (n : Z) : (0 <= n < 2 ^ 31)%Z -> Z.to_nat n <= length b ->
  bunch_bufferCoordinates b (i32 n) = coordinates (Z.to_nat n) b.
Proof.
  intros H HL. unfold bunch_bufferCoordinates, coordinates. unfold i32. rewrite Z.mod_small by lia.
  replace (n + 2 ^ 31 - 2 ^ 31)%Z with n by lia. unfold bunch_NOP. rewrite Z.min_r by lia. reflexivity.
Qed.
Lemma tlog_update_of step nop (vals : list (list T)) b : (0 <= 6 * nop < 2 ^ 32)%Z -> Z.to_nat nop <= length b ->
  tlog_update b (BL (u32 (Z.of_nat (length vals))) step nop 6 (map (map Some) vals)) =
  Ok (BL (u32 (Z.of_nat (length (vals ++ [coordinates (Z.to_nat nop) b])))) step nop 6
         (map (map Some) (vals ++ [coordinates (Z.to_nat nop) b]))).
Proof.
  intros HB HL. unfold tlog_update. cbn [blNOP]. rewrite coords_are by (try assumption; lia).
  rewrite push_full; cbn [blNOP blNOD blNOTS blStep blData].
  - rewrite map_app, app_length. cbn [map length]. do 2 f_equal. unfold u32. rewrite Zplus_mod_idemp_l. f_equal. lia.
  - rewrite coordinates_len by exact HL. unfold u32. rewrite Z.mod_small by lia. lia.
Qed.
Lemma probe_values_len n (b : list (particle T)) : n <= length b -> length (probe_values n b) = 16 * n.
Proof.
  intros H. unfold probe_values. rewrite <- (firstn_length_le b H) at 2. generalize (firstn n b). clear.
  induction l as [|p l IH]; [reflexivity|]. cbn [flat_map length]. rewrite app_length, IH. cbn. lia.
Qed.
End P.
