(* Specification vocabulary for bunches and beams. *)
From Coq Require Import ZArith Reals List.
From Verif Require Import Base Num VecModel ParticleModel ParticleSpec BunchModel.
Import ListNotations.

Section S.
Context {T : Type}.
(* the six phase space coordinates x y z px py pz of a trajectory point *)
Definition phase6 (q : tpoint T) : list T :=
  [vx (tpx q); vy (tpx q); vz (tpx q); vx (tpp q); vy (tpp q); vz (tpp q)].

(* everything of a particle but the stored trajectory and the current point *)
Definition same_rest (p q : particle T) : Prop :=
  pCharge q = pCharge p /\ pMass q = pMass p /\ pqm q = pqm p /\ pdt q = pdt p /\
  pqmt2 q = pqmt2 p /\ pNpre q = pNpre p /\ pE q = pE p /\ pB q = pB p /\
  pVp q = pVp p /\ pVg q = pVg p.

(* q is p with the point c appended to the trajectory and made the current one *)
Definition appended (c : tpoint T) (p q : particle T) : Prop :=
  trajectory q = trajectory p ++ [c] /\ current q = c /\ same_rest p q.

(* the charges (in units of e) of all particles, bunch by bunch *)
Definition charges (bs : list (bunch T)) : list (list T) := map (map pCharge) bs.

(* the particles in the order: first particle of every bunch, second particle of
   every bunch, ... *)
Definition opt_list {A} (o : option A) : list A := match o with Some a => [a] | None => [] end.
Definition row {A} (bs : list (list A)) (i : nat) : list A := flat_map (fun b => opt_list (nth_error b i)) bs.
Definition longest {A} (bs : list (list A)) : nat := fold_right (fun b m => Nat.max (length b) m) 0 bs.
Definition round_robin {A} (bs : list (list A)) : list A := flat_map (row bs) (seq 0 (longest bs)).
End S.

Local Open Scope R_scope.
Definition sum (l : list R) : R := fold_right Rplus 0 l.
Definition mean (l : list R) : R := sum l / INR (length l).
(* standard deviation *)
Definition rms (l : list R) : R := sqrt (mean (map (fun x => (x - mean l) * (x - mean l)) l)).

(* coordinate k of the first trajectory point (zero if there is none) *)
Definition start6 (k : nat) (p : particle R) : R :=
  match trajectory p with q :: _ => nth k (phase6 q) 0 | [] => 0 end.

(* a particle with trajectory *)
Definition has_start (p : particle R) : Prop := wf p /\ (1 <= pNP p)%Z.

(* p' is p restarted from its first point with v added to coordinate dep *)
Definition correlated (dep : nat) (v : R) (p p' : particle R) : Prop :=
  exists q r q', trajectory p = q :: r /\ trajectory p' = [q'] /\ current p' = q' /\
    tpt q' = tpt q /\ tpa q' = tpa q /\
    nth dep (phase6 q') 0 = nth dep (phase6 q) 0 + v /\
    (forall k, (k < 6)%nat -> k <> dep -> nth k (phase6 q') 0 = nth k (phase6 q) 0) /\
    same_rest p p'.
