(* C87: which runs release an object in the wrong form. *)
From Coq Require Import List Bool Arith Permutation.
From Verif Require Import Base MemModel MemModel2 MemSpec MemProofs MemProofs4 MemProofs6 PropMem.
Import ListNotations.

(* A run is undefined if and only if the input has a source screen or a mesh, or rank 0 writes a screen, or
   takes a snapshot of a beam with particles; no other run releases an object in the wrong form. *)
Definition wrong_form (r : run_shape) : Prop :=
  (exists nx ny, In (SSource nx ny) (rs_elems r)) \/
  (exists ok lat np time field, In (SMesh ok lat np time field) (rs_obs r)) \/
  rs_rank r = 0 /\ ((exists lat nx ny, In (SScreen true lat nx ny) (rs_obs r)) \/
                    (exists ok, In (SSnap ok false) (rs_obs r)) /\ 0 < list_sum (map (fun s => match s with SParticle _ => 1 | SBunch n _ _ | SSdds n _ => n end) (rs_beam r))).
Theorem C87_forms_refuted_iff : forall r, run true r = UB <-> wrong_form r.
Proof.
  assert (E : forall r, mismatch r = true <-> wrong_form r).
  { intros r. unfold mismatch, wrong_form. rewrite orb_true_iff, !existsb_exists. split.
    - intros [(s & Hs & E)|(s & Hs & E)].
      + destruct s; [discriminate|]. left. eauto.
      + destruct s; cbn [obs_mismatch] in E; [| | |discriminate].
        * apply andb_prop in E. destruct E as [E1 ->]. apply Nat.eqb_eq in E1. right. right. split; [exact E1|]. left. eauto.
        * apply andb_prop in E. destruct E as [E E2]. apply andb_prop in E. destruct E as [E1 E3]. destruct lat; [discriminate|]. apply Nat.eqb_eq in E1. apply Nat.ltb_lt in E2.
          right. right. split; [exact E1|]. right. split; [eauto|exact E2].
        * right. left. eauto 6.
    - intros [(nx & ny & H)|[(ok & lat & np & ti & fi & H)|(R & [(lat & nx & ny & H)|((ok & H) & N)])]].
      + left. exists (SSource nx ny). split; [exact H|reflexivity].
      + right. exists (SMesh ok lat np ti fi). split; [exact H|reflexivity].
      + right. exists (SScreen true lat nx ny). split; [exact H|]. cbn. rewrite R. reflexivity.
      + right. exists (SSnap ok false). split; [exact H|]. cbn [obs_mismatch]. rewrite R. apply Nat.ltb_lt. exact N. }
  intros r. rewrite <- E. split; [|apply forms_undefined]. intros U. destruct (mismatch r) eqn:M; [reflexivity|].
  destruct (C87_forms_partial r M) as (h & H & _). rewrite H in U. discriminate.
Qed.
Print Assumptions C87_forms_refuted_iff.
(* the programs propagate and reflection do so with every input *)
Theorem C87_propagate_always_refuted : forall src tgt counts, run_propagate true src tgt counts = UB.
Proof. exact propagate_undefined. Qed.
Print Assumptions C87_propagate_always_refuted.
(* but the traces made for one cell are released in the form of their allocation, and nothing of them is left *)
Theorem C87_cell_forms : forall uses count h,
  NoDup (map c_addr (h_live h)) -> (forall c, In c (h_live h) -> c_addr c < h_next h) ->
  (forall a, In a uses -> In a (map c_addr (h_live h))) ->
  exists h', cell_derivs true uses count h = Ok (tt, h') /\ Permutation (h_live h') (h_live h).
Proof.
  intros uses count h ND FR HU.
  assert (W : wf h) by (split; [exact ND|]; apply Forall_forall; intros a Ha; apply in_map_iff in Ha; destruct Ha as (c & <- & Hc); exact (FR c Hc)).
  assert (P : Permutation (h_live h) (h_live h ++ [])) by (rewrite app_nil_r; reflexivity).
  destruct (cell_derivs_ok true uses count (h_live h) HU h [] W P) as ([] & h' & E & _ & _ & P').
  exists h'. split; [exact E|]. rewrite app_nil_r in P'. exact P'.
Qed.
Print Assumptions C87_cell_forms.
Example C87_cell_forms_ex : exists h', cell_derivs true [0; 2] 3 (Heap 4 [Cell 2 One KTrace; Cell 0 Arr KTrace]) = Ok (tt, h').
Proof. eexists. reflexivity. Qed.
Example C87_forms_iff_ex : wrong_form (ex_run [SElem] ex_beam [] [SScreen true false 1 1] 0) /\
  ~ wrong_form (ex_run [SElem] ex_beam [true] [SScreen true false 2 2; SSnap true false; SPoint true true] 1).
Proof.
  split.
  - right. right. split; [reflexivity|]. left. exists false, 1, 1. left. reflexivity.
  - rewrite <- C87_forms_refuted_iff. destruct (C87_forms_partial _ (proj2 C87_forms_partial_ex)) as (h & H & _). rewrite H. discriminate.
Qed.
