(* The processes of the MPI program and their communication, /repo/src/teufel_hybrid.cpp.
   A process is the tree of what it does next: a collective operation, writing or reading files,
   its end.  What it computes in between is part of the tree.  All operations use the
   communicator MPI_COMM_WORLD and the root 0.
   The processes run asynchronously.  Every process enters and leaves the collective operations
   separately: the i-th operation entered by one process belongs to the i-th operation entered by
   any other one (MPI standard, collective communication).  A process can leave
   - a barrier, an all-gather and MPI_Finalize as soon as all processes have entered it,
   - a broadcast as soon as the root has entered it,
   - a reduction at once, the root as soon as all processes have entered it.
   So the root may run ahead of the others after a broadcast, and the others after a reduction.
   Simplifications:
   - the sum of a reduction is taken in the order of the processes;
   - files are written and read at once. *)
From Coq Require Import ZArith List Bool Arith.
From Verif Require Import Base.
Import ListNotations.
Local Open Scope list_scope.

(* the collective operations with the number of values *)
Inductive coll : Type := CBarrier | CFinalize | CBcast (n : Z) | CAllgather (n : Z) | CReduce (n : Z).
(* how a process fails: an exception which leaves main, undefined behaviour, an endless loop,
   a call of exit *)
Inductive fate : Type := FThrow (e : exn) | FUB | FLoop | FExit (status : Z).

(* D: contents of a buffer; W: a file written *)
Inductive proc (D W : Type) : Type :=
| Done                                          (* return from main *)
| Died (f : fate)
| Call (c : coll) (send : D) (k : D -> proc D W)  (* k is given what the operation delivers *)
| Write (f : W) (p : proc D W)
| Read (k : list W -> proc D W).                (* k is given the files written so far *)
Arguments Done {D W}. Arguments Died {D W} _. Arguments Call {D W} _ _ _. Arguments Write {D W} _ _. Arguments Read {D W} _.

(* a computation which may fail, then k *)
Definition lift {D W A : Type} (r : res A) (k : A -> proc D W) : proc D W :=
  match r with Ok a => k a | Throw e => Died (FThrow e) | UB => Died FUB | Loop => Died FLoop end.

(* a process: the operations it has entered, what it does next; if it waits then it has
   entered the operation which comes next and not yet left it *)
Record pstate (D W : Type) : Type := PRC { entered : list (coll * D); code : proc D W; waiting : bool }.
Arguments PRC {D W} _ _ _. Arguments entered {D W} _. Arguments code {D W} _. Arguments waiting {D W} _.
(* all processes and the files written so far *)
Record system (D W : Type) : Type := SYS { ranks : list (pstate D W); written : list W }.
Arguments SYS {D W} _ _. Arguments ranks {D W} _. Arguments written {D W} _.

Section Comm.
Context {D W : Type}.
(* the empty buffer, the concatenation and the sum of buffers *)
Variables (none : D) (gather reduce : list D -> D).

(* what an operation delivers to a process; sends are the buffers of all processes *)
Definition delivers (c : coll) (rank : nat) (sends : list D) : D :=
  match c with
  | CBarrier | CFinalize => none
  | CBcast _ => hd none sends
  | CAllgather _ => gather sends
  | CReduce _ => match rank with O => reduce sends | S _ => none end
  end.
(* a process can leave the operation only if the other one has entered it *)
Definition needs (c : coll) (rank other : nat) : bool :=
  match c with
  | CBarrier | CFinalize | CAllgather _ => true
  | CBcast _ => other =? 0
  | CReduce _ => rank =? 0
  end.

Definition start (ps : list (proc D W)) : system D W := SYS (map (fun p => PRC [] p false) ps) [].
(* the buffers of the i-th operation *)
Definition sends_at (i : nat) (g : system D W) : list D :=
  map (fun q => match nth_error (entered q) i with Some (_, d) => d | None => none end) (ranks g).
Definition with_rank (r : nat) (q : pstate D W) (g : system D W) : system D W := SYS (lset (ranks g) r q) (written g).

(* one step of one process *)
Inductive step : system D W -> system D W -> Prop :=
| S_enter g r h c s k : nth_error (ranks g) r = Some (PRC h (Call c s k) false) ->
    step g (with_rank r (PRC (h ++ [(c, s)]) (Call c s k) true) g)
| S_leave g r h x c s k : nth_error (ranks g) r = Some (PRC (h ++ [x]) (Call c s k) true) ->
    (forall o q, nth_error (ranks g) o = Some q -> needs c r o = true -> length h < length (entered q)) ->
    step g (with_rank r (PRC (h ++ [x]) (k (delivers c r (sends_at (length h) g))) false) g)
| S_write g r h f p : nth_error (ranks g) r = Some (PRC h (Write f p) false) ->
    step g (SYS (lset (ranks g) r (PRC h p false)) (written g ++ [f]))
| S_read g r h k : nth_error (ranks g) r = Some (PRC h (Read k) false) ->
    step g (with_rank r (PRC h (k (written g)) false) g).

(* n steps of any processes *)
Inductive run : nat -> system D W -> system D W -> Prop :=
| R_none g : run 0 g g
| R_step n g g' g'' : run n g g' -> step g' g'' -> run (S n) g g''.

(* all processes have returned from main *)
Definition finished (g : system D W) : Prop := Forall (fun q => code q = Done) (ranks g).
(* operations which do not belong together: different ones, different numbers of values, or one
   which another process will never enter *)
Definition mismatch (g : system D W) : Prop :=
  exists q q', In q (ranks g) /\ In q' (ranks g) /\
    ((exists i x y, nth_error (entered q) i = Some x /\ nth_error (entered q') i = Some y /\ fst x <> fst y) \/
     (code q = Done /\ length (entered q) < length (entered q'))).
End Comm.
