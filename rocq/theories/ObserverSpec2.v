(* What is expected of the integration by several nodes and threads, and of the geometry. *)
From Coq Require Import ZArith Reals List Bool.
From Verif Require Import Base Num VecModel ParticleModel TraceModel RetardModel BunchModel ObserverModel ObserverSpec.
Import ListNotations.
Local Open Scope Z_scope.

Section Cells.
Context {T : Type} {NT : Num T}.
Implicit Types (o : observer T) (src : source T).
Definition in_cells o (xy : Z * Z) : Prop := let '(nx, ny, _) := extent o in 0 <= fst xy < nx /\ 0 <= snd xy < ny.
(* the content of one cell, as a trace *)
Definition cell_of o (xy : Z * Z) : res (ftrace T) :=
  match o with
  | OScreen s => cell_get (scTr s) (fst xy) (snd xy)
  | OSnap s => bind (cell_get (snF s) (fst xy) (snd xy)) (fun f => Ok (FT (snt s) (nZ 0) [f]))
  | OPoint s => Ok (poTr s)
  | OMesh s => zget (msA s) (fst xy)
  end.
(* the work done by integrate for one cell *)
Definition cell_op src o (xy : Z * Z) (tr : ftrace T) : res (ftrace T) :=
  match o with
  | OScreen s => screen_cell src s (fst xy) (snd xy) tr
  | OSnap s => bind (snap_cell src s (fst xy) (snd xy)) (fun f => Ok (FT (snt s) (nZ 0) [f]))
  | OPoint s => match src with
                | SBeam bm => beam_integrate bm (poX s) tr
                | SLattice F => lattice_trace F (tr_time tr) (length (tr_f tr)) (poX s) tr
                end
  | OMesh s => mesh_cell src s (fst xy) tr
  end.

(* all cells of an observer *)
Definition all_cells o : list (Z * Z) := let '(nx, ny, _) := extent o in pairs nx ny.
(* nothing stored yet *)
Definition blank o : Prop := forall k f, inside o k -> obs_get o k = Ok f -> f = ezero.
Definition beam_ps (bm : beam T) : list (particle T) := concat (bmB bm).

(* Memory: the contents of all cells and the counter.  Events of the threads: the atomic
   increment of the counter and atomic accesses (of any granularity) to the own cell. *)
Definition cells : Type := Z * Z -> ftrace T.
Inductive event : Type :=
| Count                                                      (* counter++ *)
| Work (xy : Z * Z) (op : ftrace T -> res (ftrace T)).       (* update of cell xy *)
Definition same_cell (a b : Z * Z) : bool := (fst a =? fst b) && (snd a =? snd b).
Definition event_step (st : Z * cells) (e : event) : res (Z * cells) :=
  let (n, m) := st in
  match e with
  | Count => Ok (n + 1, m)
  | Work xy op => bind (op (m xy)) (fun tr => Ok (n, fun c => if same_cell c xy then tr else m c))
  end.
Definition run (l : list event) (st : Z * cells) : res (Z * cells) := fold_res event_step l st.
(* one thread works on its list of cells one after the other: counter++, then the updates *)
Definition thread (ops : Z * Z -> list (ftrace T -> res (ftrace T))) (cs : list (Z * Z)) : list event :=
  flat_map (fun xy => Count :: map (Work xy) (ops xy)) cs.
Definition do_ops (l : list (ftrace T -> res (ftrace T))) (tr : ftrace T) : res (ftrace T) := fold_res (fun tr op => op tr) l tr.

End Cells.
Arguments event T : clear implicits.
Arguments cells T : clear implicits.

(* a schedule: the events of the threads in some order which keeps the order of each thread *)
Inductive interleaved {Ev} : list (list Ev) -> list Ev -> Prop :=
| int_done : forall ls, Forall (fun l => l = []) ls -> interleaved ls []
| int_step : forall a e t b l, interleaved (a ++ t :: b) l -> interleaved (a ++ (e :: t) :: b) (e :: l).

(* corner t of a triangle *)
Definition corner (t : Z * Z * Z) (p : Z) : Prop := let '(a, b, c) := t in p = a \/ p = b \/ p = c.

Local Open Scope R_scope.
Definition orthonormal (a b c : vec R) : Prop :=
  vdot a a = 1 /\ vdot b b = 1 /\ vdot c c = 1 /\ vdot a b = 0 /\ vdot b c = 0 /\ vdot a c = 0.
(* energy leaving through a cell, sum of a list *)
Definition outflow (tc : ftrace R * cellgeo) : R := - (cgArea (snd tc) * vdot (tr_poynting (fst tc)) (cgNormal (snd tc))).
Definition rsum (l : list R) : R := fold_right Rplus 0 l.
