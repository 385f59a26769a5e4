(* What the parallel program is to compute: the same tracking, done by one process
   without any communication. *)
From Coq Require Import ZArith List.
From Verif Require Import Base Num VecModel ParticleModel ParticleSpec BunchModel BunchSpec BeamSpec.
Import ListNotations.
Local Open Scope res_scope.

(* particles number r*m .. r*m+m-1 *)
Definition chunk {A} (m r : nat) (l : list A) : list A := firstn m (skipn (r * m) l).

(* smallest number of particles per node sufficient for N particles on P nodes *)
Definition share (N P : Z) : Z := ((N + P - 1) / P)%Z.

Section S.
Context {T : Type} {NT : Num T}.

(* particle with the point c appended and made current *)
Definition append_point (c : tpoint T) (p : particle T) : particle T :=
  mkP (pCharge p) (pMass p) (pqm p) (pdt p) (pqmt2 p) (pNP p + 1) (pNpre p)
      (tpt c) (tpx c) (tpp c) (tpa c) (pE p) (pB p)
      (pTimes p ++ [tpt c]) (pXs p ++ [tpx c]) (pPs p ++ [tpp c]) (pAs p ++ [tpa c]) (pVp p) (pVg p).
(* particle restarted with the single point c *)
Definition restarted (n : Z) (c : tpoint T) (p : particle T) : particle T :=
  mkP (pCharge p) (pMass p) (pqm p) (pdt p) (pqmt2 p) 1 (Some n)
      (tpt c) (tpx c) (tpp c) (tpa c) (pE p) (pB p) [tpt c] [tpx c] [tpp c] [tpa c] (pVp p) (pVg p).
(* the copy of a particle which is tracked: no field has been seen yet *)
Definition no_field (p : particle T) : particle T :=
  mkP (pCharge p) (pMass p) (pqm p) (pdt p) (pqmt2 p) (pNP p) (pNpre p)
      (pt p) (pX p) (pP p) (pA p) vzero vzero (pTimes p) (pXs p) (pPs p) (pAs p) (pVp p) (pVg p).

(* apply f to every particle of the bunches, with one element of cs each *)
Fixpoint zip_in {C} (f : C -> particle T -> particle T) (cs : list C) (b : list (particle T)) : list (particle T) :=
  match cs, b with c :: cs, p :: b => f c p :: zip_in f cs b | _, _ => [] end.
Fixpoint spread {C} (f : C -> particle T -> particle T) (cs : list C) (bs : list (bunch T)) : list (bunch T) :=
  match bs with
  | [] => []
  | b :: r => zip_in f (firstn (length b) cs) b :: spread f (skipn (length b) cs) r
  end.

(* two particles which differ at most in their coordinates (and reserved memory) *)
Definition same_but_start (p q : particle T) : Prop :=
  pCharge q = pCharge p /\ pMass q = pMass p /\ pqm q = pqm p /\ pdt q = pdt p /\
  pqmt2 q = pqmt2 p /\ pE q = pE p /\ pB q = pB p /\ pVp q = pVp p /\ pVg q = pVg p.
(* the beams two nodes have created from the same input: the random coordinates may
   differ *)
Definition same_input (a b : beam T) : Prop :=
  same_structure a b /\ bmdt b = bmdt a /\ bmTracker b = bmTracker a /\
  Forall2 same_but_start (concat (bmB a)) (concat (bmB b)).

Context {L : Type} (Fof : L -> field_fn T) (linit lstep : beam T -> L -> res L).

(* the state of the computation: the recorded beam, the particles being tracked, the
   fields *)
Record sim : Type := SIM { sMaster : beam T; sTracked : list (particle T); sLat : L }.

Definition sim_start (NOTS : Z) (lat : L) (bm : beam T) : res sim :=
  let all := concat (bmB bm) in
  let rec := BM (spread (restarted (NOTS + 1)) (map current all) (bmB bm)) 0 (bmdt bm) (bmTracker bm) in
  match bmTracker bm with
  | TRACKING_VAY =>
      tracked <- map_res (fun p => InitVay (bmdt bm) (Fof lat) (no_field p)) (concat (bmB rec));;
      lat' <- linit rec lat;;
      Ok (SIM rec tracked lat')
  | _ => Throw IOexc
  end.
Definition sim_step (s : sim) : res sim :=
  tracked <- map_res (StepVay (Fof (sLat s))) (sTracked s);;
  let rec := BM (spread append_point (map current tracked) (bmB (sMaster s)))
                (bmNOTS (sMaster s) + 1) (bmdt (sMaster s)) (bmTracker (sMaster s)) in
  lat' <- lstep rec (sLat s);;
  Ok (SIM rec tracked lat').
Definition sim_run (NOTS : Z) (lat : L) (bm : beam T) (k : nat) : res sim :=
  s <- sim_start NOTS lat bm;; iter_res sim_step k s.
End S.

(* the same outcome; results are related by R *)
Definition same_outcome {A B} (R : A -> B -> Prop) (a : res A) (b : res B) : Prop :=
  match a, b with
  | Ok x, Ok y => R x y
  | Throw e, Throw e' => e = e'
  | UB, UB | Loop, Loop => True
  | _, _ => False
  end.
