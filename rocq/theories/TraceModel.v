(* Model of class FieldTrace, /repo/src/fieldtrace.h and fieldtrace.cpp.
   The private members N and trace are represented by one list: they are set
   together by both constructors (fieldtrace.cpp:27-41) and no member function
   changes the one without the other (operator= requires equal N). *)
From Coq Require Import ZArith List Bool.
From Verif Require Import Base Num VecModel ParticleModel.
Import ListNotations.
Local Open Scope num_scope.
Local Open Scope res_scope.

Record ftrace (T : Type) : Type := FT { tr_t0 : T; tr_dt : T; tr_f : list (emf T) }.
Arguments FT {T} _ _ _.
Arguments tr_t0 {T} _. Arguments tr_dt {T} _. Arguments tr_f {T} _.

Section Trace.
Context {T : Type} {NT : Num T}.
Notation trT := (ftrace T).

(* get_N, fieldtrace.h:108 *)
Definition tr_N (tr : trT) : Z := Z.of_nat (length (tr_f tr)).

(* fieldtrace.cpp:27-33 *)
Definition tr_new (t0 dt : T) (n : nat) : trT := FT t0 dt (repeat ezero n).
(* zero, fieldtrace.cpp:43-47 *)
Definition tr_zero (tr : trT) : trT := FT (tr_t0 tr) (tr_dt tr) (map (fun _ => ezero) (tr_f tr)).
(* operator=, fieldtrace.cpp:54-74 *)
Definition tr_assign (this t : trT) : res trT :=
  if (tr_N this =? tr_N t)%Z then Ok (FT (tr_t0 t) (tr_dt t) (tr_f t)) else Throw IOexc.
(* operator* and operator/, fieldtrace.cpp:76-90 *)
Definition tr_mul (tr : trT) (k : T) : trT :=
  FT (tr_t0 tr) (tr_dt tr) (map (fun f => emul f k) (tr_f tr)).
Definition tr_div (tr : trT) (k : T) : trT :=
  FT (tr_t0 tr) (tr_dt tr) (map (fun f => ediv f k) (tr_f tr)).

(* sample by sample combination *)
Fixpoint zip_with {A B C} (f : A -> B -> C) (a : list A) (b : list B) : list C :=
  match a, b with x :: a', y :: b' => f x y :: zip_with f a' b' | _, _ => [] end.
(* the three checks of the binary operators *)
Definition tr_match (a b : trT) : bool :=
  (tr_N a =? tr_N b)%Z && (tr_t0 a =? tr_t0 b) && (tr_dt a =? tr_dt b).
(* operator+ and operator+=, fieldtrace.cpp:92-111 *)
Definition tr_add (a b : trT) : res trT :=
  if tr_match a b then Ok (FT (tr_t0 a) (tr_dt a) (zip_with eadd (tr_f a) (tr_f b)))
  else Throw IOexc.
(* operator-, fieldtrace.cpp:113-122 *)
Definition tr_sub (a b : trT) : res trT :=
  if tr_match a b then Ok (FT (tr_t0 a) (tr_dt a) (zip_with esub (tr_f a) (tr_f b)))
  else Throw IOexc.

(* index checks: the parameters are of type std::size_t; a negative int passed
   by the caller becomes huge and fails the same check *)
Definition tr_in (tr : trT) (i : Z) : bool := ((0 <=? i) && (i <? tr_N tr))%Z.
(* get_time, fieldtrace.cpp:140-145 *)
Definition tr_time (tr : trT) (i : Z) : res T :=
  if tr_in tr i then Ok (tr_t0 tr + nZ i * tr_dt tr) else Throw IOexc.
(* get_last_time, fieldtrace.cpp:147-152 *)
Definition tr_last_time (tr : trT) : res T :=
  if (0 <? tr_N tr)%Z then tr_time tr (tr_N tr - 1) else Ok (tr_t0 tr).
(* get_center_time, fieldtrace.cpp:154-157 *)
Definition tr_center_time (tr : trT) : T := tr_t0 tr + nhalf * tr_dt tr * nZ (tr_N tr).
(* get_field(size_t), fieldtrace.cpp:159-164 *)
Definition tr_get (tr : trT) (i : Z) : res (emf T) :=
  if tr_in tr i then zget (tr_f tr) i else Throw IOexc.
(* set_field, fieldtrace.cpp:166-171 *)
Definition tr_set (tr : trT) (i : Z) (f : emf T) : res trT :=
  if tr_in tr i then l <- zset (tr_f tr) i f;; Ok (FT (tr_t0 tr) (tr_dt tr) l) else Throw IOexc.
(* add, fieldtrace.cpp:185-190 *)
Definition tr_acc (tr : trT) (i : Z) (f : emf T) : res trT :=
  if tr_in tr i then
    g <- zget (tr_f tr) i;; l <- zset (tr_f tr) i (eadd g f);; Ok (FT (tr_t0 tr) (tr_dt tr) l)
  else Throw IOexc.

(* get_buffer, fieldtrace.cpp:124-130: the elements written to a buffer of which
   the caller says it has Nb elements *)
Definition tr_get_buffer (tr : trT) (Nb : Z) : res (list (emf T)) :=
  if (Nb =? tr_N tr)%Z then map_res (tr_get tr) (zseq 0 (length (tr_f tr))) else Throw IOexc.
(* set_buffer, fieldtrace.cpp:132-138; reading behind the end of the buffer is
   undefined *)
Fixpoint tr_fill (k : nat) (i : Z) (buf : list (emf T)) (tr : trT) : res trT :=
  match k with
  | O => Ok tr
  | S k' => match buf with
            | [] => UB
            | f :: r => tr' <- tr_set tr i f;; tr_fill k' (i + 1) r tr'
            end
  end.
Definition tr_set_buffer (tr : trT) (buf : list (emf T)) (Nb : Z) : res trT :=
  if (Nb =? tr_N tr)%Z then tr_fill (length (tr_f tr)) 0 buf tr else Throw IOexc.

(* get_field(double), fieldtrace.cpp:173-183 *)
Definition tr_sample (tr : trT) (nI i : Z) : res (emf T) :=
  if ((0 <=? i) && (i <? nI))%Z then zget (tr_f tr) i else Ok ezero.
Definition tr_at (tr : trT) (time : T) : res (emf T) :=
  let ref := (time - tr_t0 tr) / tr_dt tr in
  index <- to_int (nfloor ref);;
  let frac := ref - nZ index in
  let nI := i32 (tr_N tr) in
  f1 <- tr_sample tr nI index;;
  (* index+1 must not overflow *)
  next <- to_int (Some (index + 1)%Z);;
  f2 <- tr_sample tr nI next;;
  Ok (eadd (emul f1 (nZ 1 - frac)) (emul f2 frac)).

(* Poynting, fieldtrace.cpp:192-198 *)
Definition tr_poynting (tr : trT) : vec T :=
  vmul (fold_left (fun s f => vadd s (epoynting f)) (tr_f tr) vzero) (tr_dt tr).

(* derivative, fieldtrace.cpp:200-211 *)
Definition tr_derivative (tr : trT) : res trT :=
  let f := tr_f tr in
  let dt := tr_dt tr in
  let N := tr_N tr in
  a1 <- zget f 1;; a0 <- zget f 0;;
  s <- tr_set tr 0 (ediv (esub a1 a0) dt);;
  s <- fold_res (fun s i =>
         up <- zget f (i + 1);; dn <- zget f (i - 1);;
         tr_set s i (ediv (esub up dn) (nZ 2 * dt))) (zseq 1 (Z.to_nat (N - 2))) s;;
  z1 <- zget f (N - 1);; z2 <- zget f (N - 2);;
  tr_set s (N - 1) (ediv (esub z1 z2) dt).

(* cancel_long_fields, fieldtrace.cpp:213-224 *)
Definition tr_cancel (tr : trT) (normal : vec T) : trT :=
  let n := vnormalize normal in
  FT (tr_t0 tr) (tr_dt tr)
     (map (fun f => EB (vsub (fE f) (vmul n (vdot (fE f) n)))
                       (vsub (fB f) (vmul n (vdot (fB f) n)))) (tr_f tr)).

(* retard, fieldtrace.cpp:226-244, for a target different from the source *)
Definition tr_retard (tr : trT) (delta : T) (target : trT) : res trT :=
  l <- map_res (fun i => t <- tr_time target i;; tr_at tr (t - delta))
               (zseq 0 (length (tr_f target)));;
  let out := FT (tr_t0 target) (tr_dt target) l in
  if vnorm (tr_poynting out) =? nZ 0 then Throw IOexc else Ok out.

(* transform, fieldtrace.cpp:246-257 *)
Definition tr_transform (tr : trT) (ex ey ez : vec T) : trT :=
  FT (tr_t0 tr) (tr_dt tr)
     (map (fun f => EB (V (vdot (fE f) ex) (vdot (fE f) ey) (vdot (fE f) ez))
                       (V (vdot (fB f) ex) (vdot (fB f) ey) (vdot (fB f) ez))) (tr_f tr)).
End Trace.
