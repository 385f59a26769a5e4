(* C87: the life of the heap objects of teufel_hybrid. *)
From Coq Require Import List Bool Arith Permutation.
From Verif Require Import Base MemModel MemModel2 MemSpec MemProofs3 MemProofs4 MemProofs5.
Import ListNotations.

(* What the operations mean.  An object which does not live can neither be used nor released; a
   release in the wrong form is undefined in strict mode; a release in the right form removes
   just this object; a new object gets an address not used before. *)
Theorem C87_heap : forall h a f k,
  (lives a h -> muse a h = Ok (tt, h)) /\ (~ lives a h -> muse a h = UB) /\
  (forall strict, ~ lives a h -> mdel strict f a h = UB) /\
  (lives a h -> (forall c, In c (h_live h) -> c_addr c = a -> c_form c <> f) -> mdel true f a h = UB) /\
  (forall strict, lives a h -> (strict = true -> forall c, In c (h_live h) -> c_addr c = a -> c_form c = f) ->
    exists h', mdel strict f a h = Ok (tt, h') /\ h_next h' = h_next h /\ ~ lives a h' /\
      forall c, In c (h_live h') <-> In c (h_live h) /\ c_addr c <> a) /\
  exists b h', mnew f k h = Ok (b, h') /\ b = h_next h /\ h_next h' = S b /\ h_live h' = Cell b f k :: h_live h.
Proof.
  intros h a f k. repeat split.
  - apply use_live.
  - apply use_dead.
  - intros s. apply del_dead.
  - apply del_wrong_form.
  - intros s. apply del_live.
  - apply new_live.
Qed.
Print Assumptions C87_heap.
(* The particles copied by a process are those with the numbers of its share *)
Theorem C87_copies : forall rank chunk ps h qs h', 0 < chunk -> distribute rank chunk 0 0 ps h = Ok (qs, h') ->
  length qs = length (filter (fun i => i / chunk =? rank) (seq 0 (length ps))).
Proof. intros rank chunk ps h qs h' HC H. exact (distribute_length rank chunk ps HC 0 0 h qs h' HC H). Qed.
Print Assumptions C87_copies.

(* For every input the program ends without releasing an object twice and
   without using an object which has been released, and exactly the objects
   [unreleased r] remain.  Missing for the full claim: nothing would remain,
   and the forms of new and delete would agree (see the refutations below). *)
Theorem C87_partial : forall r, exists h, run false r = Ok (tt, h) /\
  Permutation (map c_kind (h_live h)) (unreleased r).
Proof. exact (fun r => program_ok false r (or_introl eq_refl)). Qed.
Print Assumptions C87_partial.

(* Without interactions, and with at least one particle, nothing remains. *)
Theorem C87_nothing_left : forall r, rs_fels r = [] -> 0 < total_nop r ->
  exists h, run false r = Ok (tt, h) /\ h_live h = [].
Proof. exact program_clean. Qed.
Print Assumptions C87_nothing_left.

(* If the input has no source screens and no meshes, rank 0 writes no screen
   and no snapshot with particles, also the forms of new and delete agree. *)
Theorem C87_forms_partial : forall r, mismatch r = false -> exists h, run true r = Ok (tt, h) /\
  Permutation (map c_kind (h_live h)) (unreleased r).
Proof. exact program_forms. Qed.
Print Assumptions C87_forms_partial.

(* The programs propagate and reflection release everything exactly once. *)
Theorem C87_propagate_partial : forall src tgt counts,
  exists h, run_propagate false src tgt counts = Ok (tt, h) /\ h_live h = [].
Proof. exact propagate_mem_ok. Qed.
Print Assumptions C87_propagate_partial.

(* Already the mesh of the source releases an array with delete. *)
Theorem C87_propagate_forms_refuted :
  run_propagate true (MeshShape 1 true true) (MeshShape 1 true false) [1] = UB.
Proof. vm_compute. reflexivity. Qed.
Print Assumptions C87_propagate_forms_refuted.

(* An input for the examples: the shape with the given parts. *)
Definition ex_run (elems : list elem_shape) (beam : list bunch_shape) (fels : list bool)
  (obs : list obs_shape) (rank : nat) : run_shape :=
  RunShape elems beam (Some (fun _ => true)) [SWatch 0 true; SWatch 1 false] fels obs 2 2 rank.
Definition ex_beam : list bunch_shape :=
  [SParticle (Some (fun s => Nat.even s)); SBunch 3 None (Some (fun _ => true)); SSdds 2 (Some (fun _ => false))].

(* A mesh, a screen, a snapshot of a beam and a recorded screen as a source:
   an array is released with delete. *)
Theorem C87_forms_refuted :
  run true (ex_run [SElem] ex_beam [] [SMesh true false 1 false false] 1) = UB /\
  run true (ex_run [SElem] ex_beam [] [SScreen true false 1 1] 0) = UB /\
  run true (ex_run [SElem] ex_beam [] [SSnap true false] 0) = UB /\
  run true (ex_run [SSource 1 1] ex_beam [] [] 1) = UB.
Proof. vm_compute. repeat split. Qed.
Print Assumptions C87_forms_refuted.

(* One interaction: the object is never released. *)
Theorem C87_leak_refuted : exists h,
  run true (ex_run [SElem] ex_beam [true] [SPoint true false] 0) = Ok (tt, h) /\
  map c_kind (h_live h) = [KFel].
Proof. eexists. vm_compute. split; reflexivity. Qed.
Print Assumptions C87_leak_refuted.

(* The hypotheses are met: both nodes of a run with every type of element. *)
Example C87_partial_ex :
  exists h, run false (ex_run [SElem; SSource 2 1] ex_beam [true; false]
    [SScreen true true 2 2; SSnap true false; SMesh true false 2 true true; SPoint false true] 0) = Ok (tt, h) /\
  map c_kind (h_live h) = [KFel; KFel].
Proof. eexists. vm_compute. split; reflexivity. Qed.
Example C87_nothing_left_ex :
  let r := ex_run [SElem; SSource 2 1] ex_beam [] [SScreen true true 2 2; SSnap true false] 1 in
  rs_fels r = [] /\ 0 < total_nop r.
Proof. vm_compute. split; [reflexivity|repeat constructor]. Qed.
Example C87_forms_partial_ex :
  mismatch (ex_run [SElem] ex_beam [true] [SScreen false false 2 2; SSnap true true; SPoint true true] 0) = false /\
  mismatch (ex_run [SElem] ex_beam [true] [SScreen true false 2 2; SSnap true false; SPoint true true] 1) = false.
Proof. vm_compute. split; reflexivity. Qed.
Example C87_copies_ex : exists h', distribute 1 2 0 0 [0; 1; 2; 3; 4] (Heap 5 (map (fun a => Cell a One KParticle) (seq 0 5))) = Ok ([5; 6], h').
Proof. eexists. reflexivity. Qed.
Example C87_heap_ex : lives 3 (Heap 4 [Cell 3 Arr KBuffer]) /\ ~ lives 2 (Heap 4 [Cell 3 Arr KBuffer]).
Proof. split; [exists (Cell 3 Arr KBuffer); split; [left; reflexivity|reflexivity]|]. intros (c & [<-|[]] & H). discriminate H. Qed.
