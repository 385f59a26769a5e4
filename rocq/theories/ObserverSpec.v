(* What observers are expected to do, stated without their buffers. *)
From Coq Require Import ZArith List.
From Verif Require Import Base Num VecModel TraceModel ObserverModel.
Import ListNotations.
Local Open Scope Z_scope.

Section Spec.
Context {T : Type} {NT : Num T}.

(* extent of the storage of an observer: columns, rows, samples *)
Definition extent (o : observer T) : Z * Z * Z :=
  match o with
  | OScreen s => (scNx s, scNy s, scN s)
  | OSnap s => (snNx s, snNy s, 1)
  | OPoint s => (1, 1, tr_N (poTr s))
  | OMesh s => (mesh_Np s, 1, msNt s)
  end.
(* the index triples which name a stored field *)
Definition inside (o : observer T) (k : Z * Z * Z) : Prop :=
  let '(nx, ny, n) := extent o in let '(a, b, c) := k in
  0 <= a < nx /\ 0 <= b < ny /\ 0 <= c < n.
(* number of stored fields *)
Definition fields (o : observer T) : Z := let '(nx, ny, n) := extent o in nx * ny * n.
(* sequence number of a field: samples of one cell are contiguous, then the rows *)
Definition place (o : observer T) (k : Z * Z * Z) : Z :=
  let '(nx, ny, n) := extent o in let '(a, b, c) := k in (a * ny + b) * n + c.

(* the arrays have the announced sizes *)
Definition shaped (o : observer T) : Prop :=
  match o with
  | OScreen s => 0 <= scNx s < 2 ^ 32 /\ 0 <= scNy s < 2 ^ 32 /\ 0 <= scN s < 2 ^ 32 /\
      Z.of_nat (length (scTr s)) = scNx s /\
      Forall (fun r => Z.of_nat (length r) = scNy s /\ Forall (fun tr => tr_N tr = scN s) r) (scTr s)
  | OSnap s => 0 <= snNx s < 2 ^ 32 /\ 0 <= snNy s < 2 ^ 32 /\
      Z.of_nat (length (snF s)) = snNx s /\
      Forall (fun r => Z.of_nat (length r) = snNy s) (snF s)
  | OPoint s => True
  | OMesh s => 0 <= msNt s /\ length (msA s) = length (msX s) /\ Forall (fun tr => tr_N tr = msNt s) (msA s)
  end.
(* sizes for which the size computation of the class does not overflow *)
Definition small (o : observer T) : Prop :=
  match o with
  | OScreen _ | OSnap _ => 6 * fields o < 2 ^ 32
  | OPoint _ => 6 * fields o < 2 ^ 60
  | OMesh _ => 6 * fields o <= int_max
  end.

(* the same observer, up to the field values *)
Definition tr_like (a b : ftrace T) : Prop :=
  tr_t0 a = tr_t0 b /\ tr_dt a = tr_dt b /\ length (tr_f a) = length (tr_f b).
Definition like (o o' : observer T) : Prop :=
  match o, o' with
  | OScreen s, OScreen s' => s' = screen_with s (scTr s') /\ Forall2 (Forall2 tr_like) (scTr s) (scTr s')
  | OSnap s, OSnap s' => s' = snap_with s (snF s') /\ Forall2 (Forall2 (fun _ _ => True)) (snF s) (snF s')
  | OPoint s, OPoint s' => poX s = poX s' /\ tr_like (poTr s) (poTr s')
  | OMesh s, OMesh s' => s' = mesh_with s (msA s') /\ Forall2 tr_like (msA s) (msA s')
  | _, _ => False
  end.

(* the component number c of a field *)
Definition component (c : nat) (f : emf T) : option T :=
  nth_error [vx (fE f); vy (fE f); vz (fE f); vx (fB f); vy (fB f); vz (fB f)] c.

(* sum of a non-empty list of fields *)
Definition sum_from (f : emf T) (fs : list (emf T)) : emf T := fold_left eadd fs f.
End Spec.
