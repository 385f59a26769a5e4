(* Model of the tracking part of the MPI program /repo/src/teufel_hybrid.cpp.
   All nodes run the same program; they meet in the collective operations MPI_Bcast,
   MPI_Allgather and MPI_Reduce, which exchange the data as the MPI standard says.
   Between two collective operations the nodes do not influence each other, so the
   nodes are run one after the other for each such section.  Not modelled: printing,
   timing, usleep, memory reports, barriers, what happens in the other nodes after one
   of them has ended with an exception. *)
From Coq Require Import ZArith List Bool.
From Verif Require Import Base Num VecModel ParticleModel BunchModel.
Import ListNotations.
Local Open Scope res_scope.

(* ---- arrays of doubles ---- *)
(* An element of a buffer obtained from new double[n] is indeterminate (None) until
   it is written.  Copying indeterminate elements by MPI leaves them indeterminate,
   using one is undefined. *)
Definition buffer (T : Type) : Type := list (option T).
Definition buf_new {T} (n : Z) : buffer T := repeat None (Z.to_nat n).
(* writing values from the start of a buffer *)
Definition buf_write {T} (vals : list T) (b : buffer T) : res (buffer T) :=
  if (length vals <=? length b)%nat then Ok (map Some vals ++ skipn (length vals) b) else UB.
(* reading the first n values *)
Fixpoint buf_read {T} (n : nat) (b : buffer T) : res (list T) :=
  match n with
  | O => Ok []
  | S k => match b with
           | Some x :: r => l <- buf_read k r;; Ok (x :: l)
           | _ => UB
           end
  end.

(* the outcome of an operation which also describes the state left after a failure *)
Definition outcome {A} (r : A * res unit) : res A := _ <- snd r;; Ok (fst r).

(* one compute node.  The state of the fields (lattice with the interaction fields) has
   an arbitrary type L *)
Record pnode (T L : Type) : Type := PN {
  nMaster : beam T;       (* masterBeam: all particles *)
  nTracked : beam T;      (* trackedBeam: the particles of this node *)
  nTbuf : buffer T;       (* trackingBuffer *)
  nLat : L                (* lattice, interactions *)
}.
Arguments PN {T L} _ _ _ _.
Arguments nMaster {T L} _. Arguments nTracked {T L} _. Arguments nTbuf {T L} _. Arguments nLat {T L} _.

Section Driver.
Context {T : Type} {NT : Num T}.
Context {L : Type} (Fof : L -> field_fn T) (linit lstep : beam T -> L -> res L).

(* TRACKING_NOP, TRACKING_BUFSIZE, MASTER_BUFSIZE: teufel_hybrid.cpp:304-318, int arithmetic *)
Definition driver_sizes (P : Z) (bm : beam T) : res (Z * Z * Z) :=
  nop <- beam_NOP bm;;
  s <- iadd nop P;; s <- iadd s (-1);;
  let tn := Z.quot s P in
  m <- imul tn P;; m <- imul m 10;;
  t <- imul tn 10;;
  need <- beam_stepBufferSize bm;;
  if (m <? need)%Z then Throw IOexc else Ok (tn, t, m).

(* Beam::setStepFromBuffer called with a communication buffer; it reads ten values for
   every particle of the beam *)
Definition driver_receive (b : buffer T) (bm : beam T) : res (beam T) :=
  vals <- buf_read (10 * length (concat (bmB bm))) b;;
  r <- beam_setStep vals bm;; Ok (fst r).

(* the copy made for the node which tracks the particle: teufel_hybrid.cpp:397-398 *)
Definition driver_copy (n : Z) (p : particle T) : res (particle T) :=
  q <- copy_particle p;; preAllocate n q.

(* distribution of the particles: teufel_hybrid.cpp:382-409.  The two nested loops visit
   all particles of all bunches in order. *)
Fixpoint driver_chunk (rank tn n : Z) (ps : list (particle T)) (node cnt : Z) : res (list (particle T)) :=
  match ps with
  | [] => Ok []
  | p :: r =>
      let cnt' := (cnt + 1)%Z in
      let '(node', cnt') := if (cnt' =? tn)%Z then ((node + 1)%Z, 0%Z) else (node, cnt') in
      if (rank =? node)%Z then
        q <- driver_copy n p;; rest <- driver_chunk rank tn n r node' cnt';; Ok (q :: rest)
      else driver_chunk rank tn n r node' cnt'
  end.

(* set-up of one node up to setupTracking, given the broadcast buffer:
   teufel_hybrid.cpp:330-338,376-422 *)
Definition node_start (P NOTS : Z) (lat : L) (bcast : buffer T) (rank : Z) (bm : beam T) : res (pnode T L) :=
  sizes <- driver_sizes P bm;;
  let '(tn, t, _) := sizes in
  n <- iadd NOTS 1;;
  bm <- beam_preAllocate n (beam_clearTrajectories bm);;
  bm <- driver_receive bcast bm;;
  let bm := beam_setNOTS 0 bm in
  ps <- driver_chunk rank tn n (concat (bmB bm)) 0 0;;
  let tb := BM [ps] 0 (bmdt bm) (bmTracker bm) in
  tb <- outcome (beam_setup (Fof lat) tb);;
  Ok (PN bm tb (buf_new t) lat).

(* initialization of the interaction fields, line 498 *)
Definition node_linit (n : pnode T L) : res (pnode T L) :=
  l <- linit (nMaster n) (nLat n);; Ok (PN (nMaster n) (nTracked n) (nTbuf n) l).

(* the whole set-up.  bms are the master beams as created by the nodes from the input
   file; the fields are the same on all nodes.  The buffer of node 0 (filled in line 324) is
   broadcast. *)
Definition driver_start (P NOTS : Z) (lat : L) (bms : list (beam T)) : res (list (pnode T L)) :=
  match bms with
  | [] => UB
  | bm0 :: _ =>
      sizes <- driver_sizes P bm0;;
      let '(_, _, m) := sizes in
      bcast <- buf_write (beam_bufferStep bm0) (buf_new m);;
      ns <- map_res (fun rb => node_start P NOTS lat bcast (fst rb) (snd rb)) (combine (zseq 0 (length bms)) bms);;
      map_res node_linit ns
  end.

(* one step of the main loop, teufel_hybrid.cpp:513-581 *)
Definition node_track (n : pnode T L) : res (pnode T L) :=
  tb <- outcome (beam_step (Fof (nLat n)) (nTracked n));;
  b <- buf_write (beam_bufferStep tb) (nTbuf n);;
  Ok (PN (nMaster n) tb b (nLat n)).
Definition node_update (step : Z) (gathered : buffer T) (n : pnode T L) : res (pnode T L) :=
  bm <- driver_receive gathered (nMaster n);;
  if (bmNOTS bm =? step + 1)%Z then
    l <- lstep bm (nLat n);; Ok (PN bm (nTracked n) (nTbuf n) l)
  else Throw IOexc.
Definition driver_step (ns : list (pnode T L)) (step : Z) : res (list (pnode T L)) :=
  ns <- map_res node_track ns;;
  let gathered := concat (map nTbuf ns) in
  map_res (node_update step gathered) ns.

(* set-up and the first k steps *)
Definition driver_run (P NOTS : Z) (lat : L) (bms : list (beam T)) (k : nat) : res (list (pnode T L)) :=
  ns <- driver_start P NOTS lat bms;;
  fold_res driver_step (zseq 0 k) ns.
End Driver.

(* (The number of elements is less than 2^31, so that the casts to int are exact.)
   Removal of the interaction fields from the lattice before the observations,
   teufel_hybrid.cpp:675-689, with Lattice::count/at/remove (fields.cpp:208-227).  The
   loop is followed for a number of rounds. *)
Section Remove.
Context {A : Type} (external : A -> bool).
Definition lattice_remove (i : Z) (l : list A) : res (list A) :=
  if ((i <? 0) || (Z.of_nat (length l) <=? i))%Z then Throw IOexc
  else Ok (firstn (Z.to_nat i) l ++ skipn (S (Z.to_nat i)) l).
Definition lattice_at (i : Z) (l : list A) : res A :=
  if ((i <? 0) || (Z.of_nat (length l) <=? i))%Z then Throw IOexc else zget l i.
Fixpoint remove_loop (fuel : nat) (i : Z) (l : list A) : res (list A) :=
  if (i <? Z.of_nat (length l))%Z then
    match fuel with
    | O => Loop
    | S f =>
        e <- lattice_at i l;;
        if external e then remove_loop f (i + 1) l
        else l' <- lattice_remove i l;; remove_loop f i l'
    end
  else Ok l.
End Remove.
