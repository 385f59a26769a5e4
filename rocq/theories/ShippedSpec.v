(* Specification of the documents which are accepted provided that the files they name can be
   read (C93).  A check of the structure of the document: which elements are there, which
   children and attributes they have, and whether the integers are in range.  e are the
   constants at the place of the document, as in ParserSpec2.v. *)
From Coq Require Import ZArith String List Bool.
From Verif Require Import Base Num VecModel ParticleModel BunchModel ElementModel ObserverModel ParserModel ParserSpec ParserSpec2.
Import ListNotations.
Local Open Scope string_scope.
Local Open Scope list_scope.
Local Open Scope bool_scope.

Definition has {A} (o : option A) : bool := match o with Some _ => true | None => false end.
Definition opt_ok {A} (f : A -> bool) (o : option A) : bool := match o with Some a => f a | None => true end.
Definition must {A} (f : A -> bool) (o : option A) : bool := match o with Some a => f a | None => false end.
Definition kids_of (n : node) (l : list string) : bool := forallb (fun k => has (child n k)) l.
Definition is (n : node) (k : string) : bool := String.eqb (nName n) k.
Definition typ (n : node) (k : string) : bool := String.eqb (attr_text n "type") k.
Definition nat_int (z : Z) : bool := ((0 <=? z) && (z <=? int_max))%Z.

(* ---- lattice ---- *)
Definition ok_element (n : node) : bool :=
  (is n "undulator" && (typ n "planar" || typ n "transverse gradient") && kids_of n ["position"; "field"]) ||
  (is n "wave" && (typ n "gaussian" || typ n "packet") && kids_of n ["position"; "field"]) ||
  (is n "screen" && has (attr n "file") && kids_of n ["position"]) ||
  (is n "dipole" && typ n "hard edge" && kids_of n ["B"; "p1"; "n1"; "p2"; "n2"]) ||
  (is n "dipole" && typ n "soft edge" && kids_of n ["B"; "p1"; "n1"; "p2"; "n2"; "transition"]) ||
  is n "background".
Definition ok_lattice (l : list node) : bool := forallb (fun n => is n "calc" || ok_element n) l.

Section Check.
Context {T : Type} {NT : Num T} {CT : Calc T}.

(* an integer in range: rounded, or truncated *)
Definition rint_of (e : cenv T) (t : string) : option Z := match cEval e t with Some x => nrint x | None => Some 0%Z end.
Definition trunc_of (e : cenv T) (t : string) : option Z :=
  let x := text_value e t in
  if nltb x (nZ 0) then match nfloor (nopp x) with Some z => Some (- z)%Z | None => None end else nfloor x.
Definition int_ok (o : option Z) : bool := must (fun z => (int_min <=? z) && (z <=? int_max))%Z o.

(* ---- beam ---- *)
Definition ok_log (n : node) : bool := opt_ok (fun l => has (attr l "file")) (child n "log").
Definition ok_linear (e : cenv T) (m : node) : bool :=
  is m "linear" && must (fun t => int_ok (trunc_of e t)) (attr m "indep") &&
  must (fun t => int_ok (trunc_of e t)) (attr m "dep") && has (attr m "factor").
Definition ok_correlations (e : cenv T) (n : node) : bool :=
  opt_ok (fun c => forallb (ok_linear e) (nKids c)) (child n "correlations").
Definition ok_bunch (e : cenv T) (n : node) : bool :=
  (is n "particle" && kids_of n ["position"; "momentum"] && ok_log n) ||
  (is n "bunch" && kids_of n ["position"; "momentum"] && ok_log n &&
     opt_ok (fun t => has (attr t "file")) (child n "trajectories") &&
     (0 <=? int_attr n "n" 1)%Z && (6 * int_attr n "n" 1 <=? int_max)%Z &&
     ok_correlations (after e (calcs_of n ++ calcs_opt (child n "time") ++ calcs_opt (child n "position") ++ calcs_opt (child n "momentum"))) n) ||
  (is n "SDDS" && has (attr n "file") && ok_log n && ok_correlations (after e (calcs_opt (child n "dir"))) n).
Fixpoint ok_beam (e : cenv T) (l : list node) : bool :=
  match l with
  | [] => true
  | n :: r =>
      (if is n "calc" then true else if is n "probe" then has (attr n "file") else ok_bunch e n) &&
      ok_beam (after e (visit_beam n)) r
  end.

(* ---- tracking ---- *)
Definition ok_fel (e : cenv T) (n : node) : bool :=
  must (fun t => int_ok (rint_of e t) && opt_ok nat_int (rint_of e t)) (attr n "N") &&
  kids_of n ["position"; "prop"; "pol"; "mode"] && ok_log n.
Definition ok_watch (e : cenv T) (n : node) : bool :=
  must (fun t => int_ok (rint_of e t)) (attr n "step") && has (attr n "file").
Fixpoint ok_tracking (e : cenv T) (l : list node) : bool :=
  match l with
  | [] => true
  | n :: r =>
      (is n "calc" || (is n "fel1d" && ok_fel (after e (calcs_of n)) n) ||
       ((is n "watch" || is n "watch-sdds") && ok_watch e n)) &&
      ok_tracking (after e (visit_tracking n)) r
  end.

(* ---- observers ---- *)
Definition ok_source (n : node) : bool := opt_ok (fun s => String.eqb s "beam" || String.eqb s "lattice") (attr n "source").
Definition ok_n (n : node) (k : string) : bool := must (fun c => must (fun t => nat_int (cInt t)) (attr c "n")) (child n k).
Definition ok_observer (n : node) : bool :=
  is n "calc" ||
  (has (attr n "file") && ok_source n &&
    ((is n "snapshot" && kids_of n ["time"; "position"] && ok_n n "hpitch" && ok_n n "vpitch") ||
     (is n "screen" && kids_of n ["position"] && ok_n n "hpitch" && ok_n n "vpitch" && ok_n n "time") ||
     is n "mesh" ||
     (is n "point" && kids_of n ["position"] && ok_n n "time"))).

(* ---- the document ---- *)
Definition ok_document (consts : cenv T) (root : node) : bool :=
  let e0 := after consts (calcs_of root) in
  let e1 := after e0 (section_of visit_lattice (child root "lattice")) in
  let e2 := after e1 (section_of visit_beam (child root "beam")) in
  must (fun l => ok_lattice (nKids l)) (child root "lattice") &&
  must (fun b => ok_beam e1 (nKids b)) (child root "beam") &&
  must (fun t => String.eqb (attr_text t "method") "Vay" && has (attr t "delta_t") &&
                 must (fun x => int_ok (rint_of e2 x)) (attr t "n") && ok_tracking e2 (nKids t)) (child root "tracking") &&
  must (fun o => forallb ok_observer (nKids o)) (child root "observer").
End Check.

(* ---- the files named in a document can be read ---- *)
Definition readable {T} {NT : Num T} (WT : World T) : Prop :=
  (forall fn d, exists b, wSDDS fn d = Ok b /\
     Forall (fun p => exists t x m a p0, p = initTrajectory t x m a p0) b) /\
  (forall fn p t, exists el, wScreen fn p t = Ok el) /\
  (forall fn, exists m x, wMesh fn = Ok m /\ mesh_init m = Ok x).

(* ---- the texts of a document which are evaluated as numbers, with the constants at the place ---- *)
Section Numbers.
Context {T : Type} {CT : Calc T}.
Definition place : Type := (cenv T * string)%type.
Definition texts (e : cenv T) (n : node) (ks : list string) : list place := map (fun k => (e, attr_text n k)) ks.
(* attributes which may be missing *)
Definition texts_opt (e : cenv T) (n : node) (ks : list string) : list place :=
  flat_map (fun k => match attr n k with Some t => [(e, t)] | None => [] end) ks.
Definition in_kid (n : node) (k : string) (f : node -> list place) : list place :=
  match child n k with Some c => f c | None => [] end.
Definition xyz : list string := ["x"; "y"; "z"].
Definition element_texts (e : cenv T) (n : node) : list place :=
  if is n "undulator" then
    in_kid n "position" (fun c => texts e c xyz) ++
    in_kid n "field" (fun c => texts e c ["B"; "period"] ++
      (if typ n "planar" then [] else texts e c ["kx"] ++ texts_opt e c ["modulation"]))
  else if is n "wave" then
    in_kid n "position" (fun c => texts e c xyz ++ (if typ n "gaussian" then [] else texts e c ["t"])) ++
    in_kid n "field" (fun c => texts e c ["ReA"; "ImA"; "lambda"; "rayleigh"] ++ (if typ n "gaussian" then [] else texts e c ["tau"]))
  else if is n "screen" then in_kid n "position" (fun c => texts e c (xyz ++ ["t"]))
  else if is n "dipole" then
    flat_map (fun k => in_kid n k (fun c => texts e c xyz)) ["B"; "p1"; "n1"; "p2"; "n2"] ++
    (if typ n "hard edge" then [] else in_kid n "transition" (fun c => texts e c ["l1"; "l2"]))
  else flat_map (fun k => in_kid n k (fun c => texts e c xyz)) ["E"; "B"].
Definition log_texts (e : cenv T) (n : node) : list place := in_kid n "log" (fun l => texts_opt e l ["bunching-freq"]).
Definition cor_texts (e : cenv T) (n : node) : list place :=
  in_kid n "correlations" (fun c => flat_map (fun m => texts e m ["indep"; "dep"; "factor"]) (nKids c)).
Definition bunch_texts (e : cenv T) (n : node) : list place :=
  if is n "particle" then
    let e1 := after e (calcs_of n) in
    texts e n ["gamma"; "charge"; "cmr"] ++ in_kid n "time" (fun c => texts e1 c ["t0"]) ++
    in_kid n "position" (fun c => texts e1 c xyz) ++ in_kid n "momentum" (fun c => texts e1 c xyz)
  else if is n "bunch" then
    let et := after e (calcs_of n ++ calcs_opt (child n "time")) in
    let ep := after et (calcs_opt (child n "position")) in
    let em := after ep (calcs_opt (child n "momentum")) in
    texts e n ["gamma"; "charge"; "cmr"] ++ in_kid n "time" (fun c => texts et c ["t0"]) ++
    in_kid n "position" (fun c => texts ep c xyz ++ texts_opt ep c ["xrms"; "yrms"; "zrms"; "zft"]) ++
    in_kid n "momentum" (fun c => texts em c xyz ++ texts_opt em c ["xrms"; "yrms"; "delta"]) ++
    cor_texts em n ++ log_texts em n
  else if is n "SDDS" then
    let e1 := after e (calcs_opt (child n "dir")) in
    in_kid n "dir" (fun c => texts e1 c xyz) ++ cor_texts e1 n ++ log_texts e1 n
  else [].
Definition track_texts (ts : string) (e : cenv T) (n : node) : list place :=
  if is n "fel1d" then
    (e, ts) :: texts e n ["N"] ++ flat_map (fun k => in_kid n k (fun c => texts e c xyz)) ["position"; "prop"; "pol"] ++
    in_kid n "mode" (fun c => texts e c ["zR"; "w0"; "zwaist"]) ++ in_kid n "seed" (fun c => texts e c ["E0"; "lambda"; "tau"; "tstart"])
  else if is n "calc" then [] else texts e n ["step"].
Definition observer_texts (e : cenv T) (n : node) : list place :=
  if is n "mesh" then []
  else in_kid n "position" (fun c => texts e c xyz) ++
    in_kid n "time" (fun c => texts e c (if is n "snapshot" then ["t0"] else ["t0"; "dt"])) ++
    flat_map (fun k => in_kid n k (fun c => texts e c xyz ++ (if is n "screen" then texts_opt e c ["dt"] else []))) ["hpitch"; "vpitch"].
(* the elements of a section, one after the other; visit: the definitions in an element *)
Fixpoint section_texts (visit : node -> list node) (f : cenv T -> node -> list place) (e : cenv T) (l : list node) : list place :=
  match l with
  | [] => []
  | n :: r => (if is n "calc" then [] else f e n) ++ section_texts visit f (after e (visit n)) r
  end.
Definition number_texts (consts : cenv T) (root : node) : list place :=
  let e0 := after consts (calcs_of root) in
  let e1 := after e0 (section_of visit_lattice (child root "lattice")) in
  let e2 := after e1 (section_of visit_beam (child root "beam")) in
  let e3 := after e2 (section_of visit_tracking (child root "tracking")) in
  in_kid root "lattice" (fun l => section_texts visit_lattice (fun e n => element_texts (after e (visit_lattice n)) n) e0 (nKids l)) ++
  in_kid root "beam" (fun b => section_texts visit_beam bunch_texts e1 (nKids b)) ++
  in_kid root "tracking" (fun t => texts e2 t ["delta_t"; "n"] ++
    section_texts visit_tracking (fun e n => track_texts (attr_text t "delta_t") (after e (visit_tracking n)) n) e2 (nKids t)) ++
  in_kid root "observer" (fun o => section_texts visit_observer (fun e n => observer_texts (after e (calcs_of n)) n) e3 (nKids o)).
(* the texts among them which have no value *)
Definition undefined_texts (consts : cenv T) (root : node) : list string :=
  map snd (filter (fun p => negb (has (cEval (fst p) (snd p)))) (number_texts consts root)).
End Numbers.
(* every definition which is visited and every number which is read has a value *)
Definition all_defined {T} {CT : Calc T} (consts : cenv T) (root : node) : Prop :=
  Forall (fun d => snd d <> None) (seq_values consts (filter is_def (visited root))) /\ undefined_texts consts root = [].
(* a second calculator which gives the same values to all texts which have one; it may give
   any value to the others *)
Definition extends {T} (C1 C2 : Calc T) : Prop :=
  (forall e t x, @cEval T C1 e t = Some x -> @cEval T C2 e t = Some x) /\
  (forall v, @cName T C1 v = @cName T C2 v) /\ (forall t, @cInt T C1 t = @cInt T C2 t).
(* the values given to the variables by a list of definitions *)
Definition same_values {T} (eqb : T -> T -> bool) (a b : list (node * option T)) : bool :=
  forallb (fun p => existsb (fun q => String.eqb (attr_text (fst p) "var") (attr_text (fst q) "var") &&
    match snd p, snd q with Some x, Some y => eqb x y | None, None => true | _, _ => false end) b) a.
