(* Specifications for reflection and propagation; see PropagateModel.v *)
From Coq Require Import ZArith List Reals.
From Coquelicot Require Import Coquelicot.
From Verif Require Import Base Num VecModel TraceModel TraceSpec PropagateModel.
Import ListNotations.
Local Open Scope R_scope.

(* ---- fields and their first derivatives in one point ---- *)
(* derivatives of the field along the coordinate axes *)
Record jacobian : Type := J { jx : emf R; jy : emf R; jz : emf R }.
(* derivative in the direction v *)
Definition along (j : jacobian) (v : vec R) : emf R :=
  eadd (eadd (emul (jx j) (vx v)) (emul (jy j) (vy v))) (emul (jz j) (vz v)).
(* curl and divergence of a vector field with the derivatives a, b, c along x, y, z *)
Definition curl (a b c : vec R) : vec R := V (vy c * -1 + vz b) (vz a * -1 + vx c) (vx b * -1 + vy a).
Definition div (a b c : vec R) : R := vx a + vy b + vz c.
(* Maxwell's equations in vacuum; d is the time derivative of the field *)
Definition maxwell (j : jacobian) (d : emf R) : Prop :=
  curl (fE (jx j)) (fE (jy j)) (fE (jz j)) = vopp (fB d) /\            (* Faraday *)
  curl (fB (jx j)) (fB (jy j)) (fB (jz j)) = vdiv (fE d) (nc * nc) /\  (* Ampere *)
  div (fE (jx j)) (fE (jy j)) (fE (jz j)) = 0 /\
  div (fB (jx j)) (fB (jy j)) (fB (jz j)) = 0.
(* components of a field in a local frame *)
Definition to_local (xi eta n : vec R) (f : emf R) : emf R :=
  EB (vtransform (fE f) xi eta n) (vtransform (fB f) xi eta n).

(* ---- least squares ---- *)
Definition rowdot (r x : list R) : R := fold_right Rplus 0 (map (fun p => fst p * snd p) (combine r x)).
Definition residual (A : list (list R)) (x b : list R) : R :=
  fold_right Rplus 0 (map (fun p => (rowdot (fst p) x - snd p) * (rowdot (fst p) x - snd p)) (combine A b)).
(* solve returns a vector of six numbers minimising the residual, for the matrix A *)
Definition least_squares (solve : list (list R) -> list R -> list R) (A : list (list R)) : Prop :=
  forall b, length (solve A b) = 6%nat /\
    forall y, length y = 6%nat -> residual A (solve A b) b <= residual A y b.
(* the points determine a quadratic polynomial *)
Definition determined (A : list (list R)) : Prop :=
  forall y, length y = 6%nat -> (forall r, In r A -> rowdot r y = 0) -> y = repeat 0 6.

(* ---- Kirchhoff integral ---- *)
(* value of a trace at a time, zero if it has none *)
Definition value (tr : ftrace R) (t : R) : emf R := match tr_at tr t with Ok f => f | _ => ezero end.
(* weights of the field and of its time derivative; d points from the source to the target *)
Definition weight (d n : vec R) : R := - vdot d n / (vnorm d * vnorm d * vnorm d).
Definition weight_t (d n : vec R) : R := - vdot d n / (vnorm d * vnorm d * nc).
(* the three contributions of one source cell to the field at pos at the time t *)
Definition kirchhoff (pos : vec R) (t : R) (c : srccell R) : emf R :=
  let d := vsub pos (srcX c) in
  let tau := t - vnorm d / nc in
  emul (eadd (eadd (emul (value (srcA c) tau) (weight d (srcN c)))
                   (emul (value (srcAt c) tau) (weight_t d (srcN c))))
             (emul (value (srcAn c) tau) (1 / vnorm d)))
       (srcArea c / (4 * PI)).
Definition kirchhoff_sum (srcs : list (srccell R)) (pos : vec R) (t : R) : emf R :=
  fold_right eadd ezero (map (kirchhoff pos t) srcs).
(* the retarded trace carries energy or is zero at all times of the target *)
Definition carries (tr target : ftrace R) (delay : R) : Prop :=
  (exists out, tr_retard tr delay target = Ok out) \/
  (forall k, (0 <= k < tr_N target)%Z -> tr_at tr (sample_time target k - delay) = Ok ezero).
(* the point displaced by e along n *)
Definition displace (X n : vec R) (e : R) : vec R := vadd X (vmul n e).

(* ---- quadratic fields on a surface ---- *)
(* second-order terms *)
Definition second (p q r : emf R) (c : vec R) : emf R :=
  eadd (eadd (emul p (vx c * vx c)) (emul q (vy c * vy c))) (emul r (vx c * vy c)).

(* ---- a recorded screen as a set of source cells ---- *)
(* the cell ix, iy: the derivative along the normal is taken as (1/c) d/dt *)
Definition screen_cell (s : sscreen R) (p : Z * Z) (c : srccell R) : Prop :=
  ss_pos s (fst p) (snd p) = Ok (srcX c) /\ srcArea c = ssdx s * ssdy s /\ srcN c = ssN s /\
  ObserverModel.cell_get (ssTr s) (fst p) (snd p) = Ok (srcA c) /\
  ObserverModel.cell_get (ssDt s) (fst p) (snd p) = Ok (srcAt c) /\
  srcAn c = tr_mul (srcAt c) (1 / nc).
(* the retarded time is within the recorded time *)
Definition lit (X : vec R) (t : R) (c : srccell R) : bool :=
  let tau := t - vnorm (vsub X (srcX c)) / nc in
  if Rle_dec (tr_t0 (srcA c)) tau then
    if Rle_dec tau (sample_time (srcA c) (Z.max 0 (tr_N (srcA c) - 1))) then true else false
  else false.

(* local coordinates p of the cell i in the frame c at the point ref *)
Definition lcoord (s : ObserverModel.mesh R) (c : ObserverModel.cellgeo (T:=R)) (ref : vec R) (i : Z) (p : vec R) : Prop :=
  exists q, zget (ObserverModel.msX s) i = Ok q /\
    p = vtransform (vsub q ref) (ObserverModel.cgXi c) (ObserverModel.cgEta c) (ObserverModel.cgNormal c).
(* the terms of a source cell carry energy (or are zero) at the target *)
Definition cell_carries (target : ftrace R) (pos : vec R) (c : srccell R) : Prop :=
  let delay := vnorm (vsub pos (srcX c)) / nc in
  carries (srcA c) target delay /\ carries (srcAt c) target delay /\ carries (srcAn c) target delay.
