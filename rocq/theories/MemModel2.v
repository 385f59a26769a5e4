(* The heap objects of the programs propagate and reflection,
   /repo/src/propagate.cpp:79-465 and /repo/src/reflection.cpp:80-584, in the
   terms of MemModel.v.  Both programs make and release the same objects in the
   same order.  The iterations of the parallel loops are run one after the
   other: every iteration releases what it makes. *)
From Coq Require Import List Bool Arith.
From Verif Require Import Base MemModel.
Import ListNotations.
Local Open Scope mem_scope.

Section Propagate.
Variable strict : bool.

(* The mesh of a file: number of cells, datasets for the time and the fields. *)
Record mesh_shape := MeshShape { ms_np : nat; ms_time : bool; ms_field : bool }.
Definition new_mesh (s : mesh_shape) : mem m_obs :=
  new_obs strict (SMesh true false (ms_np s) (ms_time s) (ms_field s)).

(* One cell of the first parallel loop, propagate.cpp:152-294 and
   reflection.cpp:234-376: [count] neighbours.  The traces of the source, the
   time derivative and the normal derivative are accessed. *)
Definition cell_derivs (uses : list nat) (count : nat) : mem unit :=
  _ <- muses uses;;
  lt <- mnew One KTrace;;
  nbh <- mrep count (t <- mnew One KTrace;; _ <- muses uses;; _ <- muse t;; mret t);;
  _ <- muses (lt :: nbh);;
  _ <- miter (mdel strict One) nbh;;
  mdel strict One lt.

(* the whole program; [counts] are the numbers of neighbours of the cells of
   the source; the output file can be created *)
Definition propagate_mem (src tgt : mesh_shape) (counts : list nat) : mem unit :=
  source <- new_mesh src;;
  dt <- mmap (fun t => _ <- muse (mo_a source);; _ <- muse t;; mnew One KTrace) (mo_traces source);;
  dn <- mmap (fun t => _ <- muse (mo_a source);; _ <- muse t;; mnew One KTrace) (mo_traces source);;
  _ <- miter (cell_derivs (mo_a source :: mo_traces source ++ dt ++ dn)) counts;;
  target <- new_mesh tgt;;
  _ <- miter (fun t => _ <- muse t;; muses (mo_a source :: mo_traces source ++ dt ++ dn)) (mo_traces target);;
  _ <- obs_output strict target;;
  _ <- muse (mo_a source);;
  _ <- miter (mdel strict One) dt;;
  _ <- miter (mdel strict One) dn;;
  _ <- del_obs strict source;;
  del_obs strict target.

Definition run_propagate (src tgt : mesh_shape) (counts : list nat) : res (unit * heap) :=
  propagate_mem src tgt counts (Heap 0 []).
End Propagate.
