(* Specification of the watch files: C58 and C61. *)
From Coq Require Import Reals ZArith String List.
From Verif Require Import Base Num VecModel ParticleModel BunchModel SddsModel.
Import ListNotations.
Local Open Scope R_scope.
Local Open Scope string_scope.
Local Open Scope list_scope.

(* the particles of a beam in the order of the bunches *)
Definition beam_particles {T} (bm : beam T) : list (particle T) := concat (bmB bm).

(* the column of that name has one entry f p for each particle p *)
Definition has_column {T} (d : sdds T) (k : string) (f : particle T -> T) (ps : list (particle T)) : Prop :=
  named (sdCol d) k = Some (map f ps).

(* the file with the names the reader asks for *)
Definition renamed {T} (n : Z) (q : T) (d : sdds T) : sdds T :=
  SD (("Particles", SLong n) :: ("Charge", SDouble q) :: sdPar d) (sdRows d) (sdCol d).

(* a file which the reader understands: n rows, total charge q *)
Record readable (d : sdds R) (n : Z) (q : R) (xs xps ys yps ps ts : list R) : Prop := {
  rd_n : named (sdPar d) "Particles" = Some (SLong n);
  rd_q : named (sdPar d) "Charge" = Some (SDouble q);
  rd_rows : sdRows d = n;
  rd_x : named (sdCol d) "x" = Some xs;
  rd_xp : named (sdCol d) "xp" = Some xps;
  rd_y : named (sdCol d) "y" = Some ys;
  rd_yp : named (sdCol d) "yp" = Some yps;
  rd_p : named (sdCol d) "p" = Some ps;
  rd_t : named (sdCol d) "t" = Some ts;
  rd_len : Forall (fun l => Z.of_nat (length l) = n) [xs; xps; ys; yps; ps; ts] }.

Definition rdot (a b : vec R) : R := vx a * vx b + vy a * vy b + vz a * vz b.
Definition mean (l : list R) : R := fold_right Rplus 0 l / INR (length l).

(* a frame of three orthogonal unit vectors with the third one along dir *)
Definition frame_along (dir ex ey es : vec R) : Prop :=
  rdot ex ex = 1 /\ rdot ey ey = 1 /\ rdot es es = 1 /\ rdot ex ey = 0 /\ rdot ex es = 0 /\ rdot ey es = 0 /\
  exists k, 0 < k /\ dir = V (k * vx es) (k * vy es) (k * vz es).
(* left-handed: ex x ey = - es *)
Definition left_handed (ex ey es : vec R) : Prop :=
  vy ex * vz ey - vz ex * vy ey = - vx es /\ vz ex * vx ey - vx ex * vz ey = - vy es /\ vx ex * vy ey - vy ex * vx ey = - vz es.

(* the particle passes the plane s=0 at the time t (counted from the mean) at the transverse
   coordinates x and y with the slopes xp and yp and the momentum p, going forward *)
Definition arrives (ex ey es : vec R) (tmean x xp y yp p t : R) (q : particle R) : Prop :=
  let P := pP q in let X := pX q in
  let g := sqrt (1 + rdot P P) in
  pt q = 0 /\
  rdot P P = p * p /\
  rdot P ex = xp * rdot P es /\ rdot P ey = yp * rdot P es /\ (0 < p -> 0 < rdot P es) /\
  let Xt := V (vx X + vx P / g * @nc R NumR * (t - tmean)) (vy X + vy P / g * @nc R NumR * (t - tmean)) (vz X + vz P / g * @nc R NumR * (t - tmean)) in
  rdot Xt ex = x /\ rdot Xt ey = y /\ rdot Xt es = 0.

(* the particle q has the mirrored coordinates of p (y reversed), and lies in the plane z=0 *)
Definition mirrored_in_plane (p q : particle R) : Prop :=
  pX q = V (vx (pX p)) (- vy (pX p)) 0 /\ pP q = V (vx (pP p)) (- vy (pP p)) (vz (pP p)).
