(* Specification of the ways in which an input document is not accepted (C76). *)
From Coq Require Import ZArith String List Bool.
From Verif Require Import Base Num VecModel ParticleModel TraceModel BunchModel DriverModel LoggerModel
  ElementModel FelModel ObserverModel ParserModel ParserSpec ParserSpec2.
Import ListNotations.
Local Open Scope string_scope.

(* what is left of an outcome without its value *)
Definition ending {A} (r : res A) : res unit :=
  match r with Ok _ => Ok tt | Throw e => Throw e | UB => UB | Loop => Loop end.

Section Refused.
Context {T : Type} {NT : Num T} {TT : Trans T} {CT : Calc T} {WT : World T}.

(* n is an element directly in the section k of the document *)
Definition entry (root : node) (k : string) (n : node) : Prop :=
  exists l, child root k = Some l /\ In n (nKids l).
(* texts which are evaluated to the nearest integer *)
Definition integer_of (root : node) (a : string) : Prop :=
  (exists t, child root "tracking" = Some t /\ attr t "n" = Some a) \/
  (exists m, entry root "tracking" m /\ nName m = "fel1d" /\ attr m "N" = Some a) \/
  (exists m, entry root "tracking" m /\ (nName m = "watch" \/ nName m = "watch-sdds") /\ attr m "step" = Some a).
(* texts which are truncated to an integer *)
Definition index_of (root : node) (a : string) : Prop :=
  exists n c m, entry root "beam" n /\ (nName n = "bunch" \/ nName n = "SDDS") /\ child n "correlations" = Some c /\
    In m (nKids c) /\ nName m = "linear" /\ (attr m "indep" = Some a \/ attr m "dep" = Some a).
Definition number_ok (z : Z) : Prop := (0 <= z <= int_max)%Z.

Inductive refusal (root : node) : res unit -> Prop :=
(* the exception of the parser: something is missing or unknown *)
| R_parser : refusal root (Throw IOexc)
(* a file which cannot be read *)
| R_lattice_file : forall n fn pos t0, entry root "lattice" n -> nName n = "screen" -> attr n "file" = Some fn ->
    refusal root (ending (wScreen fn pos t0))
| R_bunch_file : forall n fn dir, entry root "beam" n -> nName n = "SDDS" -> attr n "file" = Some fn ->
    refusal root (ending (wSDDS fn dir))
| R_mesh_file : forall n fn, entry root "observer" n -> nName n = "mesh" -> attr n "file" = Some fn ->
    refusal root (ending (wMesh fn))
| R_mesh : forall n fn m, entry root "observer" n -> nName n = "mesh" -> attr n "file" = Some fn -> wMesh fn = Ok m ->
    refusal root (ending (mesh_init m))
(* a number which is no int *)
| R_integer : forall a e x, integer_of root a -> cEval e a = Some x ->
    (forall z, nrint x = Some z -> ~ (int_min <= z <= int_max)%Z) -> refusal root UB
| R_index : forall a e, index_of root a -> (forall z, ~ int_part e a z) -> refusal root UB
(* a bunch of less than 0 or more than 357913941 particles *)
| R_negative : forall n, entry root "beam" n -> nName n = "bunch" -> (n_attr n < 0)%Z -> refusal root (Throw STDexc)
| R_many : forall n, entry root "beam" n -> nName n = "bunch" -> (n_attr n < - 357913941 \/ 357913941 < n_attr n)%Z -> refusal root UB
(* a negative size *)
| R_fel : forall n a e z, entry root "tracking" n -> nName n = "fel1d" -> attr n "N" = Some a -> int_text e a z -> (z < 0)%Z ->
    refusal root (Throw STDexc)
| R_screen : forall n hn vn tn pos h v t0 dt dtx dty, entry root "observer" n -> nName n = "screen" ->
    child n "hpitch" = Some hn -> child n "vpitch" = Some vn -> child n "time" = Some tn ->
    ~ (number_ok (int_attr hn "n" 0) /\ number_ok (int_attr vn "n" 0) /\ number_ok (int_attr tn "n" 0)) ->
    refusal root (ending (screen_new pos h v (int_attr hn "n" 0) (int_attr vn "n" 0) t0 dt dtx dty (int_attr tn "n" 0)))
| R_point : forall n tn, entry root "observer" n -> nName n = "point" -> child n "time" = Some tn -> (int_attr tn "n" 0 < 0)%Z ->
    refusal root (Throw STDexc).
End Refused.
