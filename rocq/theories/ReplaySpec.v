(* Specification of the cells of a recorded screen used as sources of radiation *)
From Coq Require Import ZArith List Reals.
From Verif Require Import Base Num VecModel TraceModel ObserverModel ObserverSpec ObserverSpec2 PropagateModel OutputSpec.
Local Open Scope R_scope.

(* the cell p of the screen s, placed where and when it has been recorded.  The fields are the
   components within the plane of the screen, expressed in the frame of the screen (see C66); the
   normal derivative is that of a wave leaving the screen along its normal *)
Definition recorded_cell (s : screen R) (p : Z * Z) (c : srccell R) : Prop :=
  srcX c = centre_pos (scO s) (scdX s) (scdY s) (scNx s) (scNy s) (fst p) (snd p) /\
  srcArea c = vnorm (scdX s) * vnorm (scdY s) /\ srcN c = scNormal s /\
  screen_t0 s (fst p) (snd p) = Ok (tr_t0 (srcA c)) /\ tr_dt (srcA c) = scdt s /\ tr_N (srcA c) = scN s /\
  (forall it g, (0 <= it < scN s)%Z -> obs_get (OScreen s) (fst p, snd p, it) = Ok g ->
     tr_get (srcA c) it = Ok (tangential (vnormalize (scdX s)) (vnormalize (scdY s)) g)) /\
  tr_derivative (srcA c) = Ok (srcAt c) /\ srcAn c = tr_mul (srcAt c) (1 / nc).
