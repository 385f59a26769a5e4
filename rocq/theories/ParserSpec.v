(* Specification of the evaluation of definitions in an input file (C56) and of the bunches
   it defines (C57). *)
From Coq Require Import ZArith String List Bool.
From Verif Require Import Base Num VecModel ParticleModel BunchModel ParserModel.
Import ListNotations.

(* a definition: a <calc> element with a non-empty var attribute *)
Definition is_def (n : node) : bool :=
  String.eqb (nName n) "calc" &&
  match find (fun a => String.eqb (fst a) "var") (nAttrs n) with Some a => negb (String.eqb (snd a) "") | None => false end.
(* all definitions in a node including itself, in the order in which they begin in the document *)
Fixpoint doc_defs (n : node) : list node :=
  (if is_def n then [n] else []) ++
  (fix go (l : list node) : list node := match l with [] => [] | m :: r => doc_defs m ++ go r end) (nKids n).
(* ... of a list of nodes *)
Definition docs_defs (l : list node) : list node := flat_map doc_defs l.
(* all definitions of a document: those below the root *)
Definition document_defs (root : node) : list node := docs_defs (nKids root).

Section Seq.
Context {T : Type} {CT : Calc T}.
(* the value a definition gives to its variable, for given values of the constants *)
Definition def_value (e : cenv T) (n : node) : option T :=
  match cEval e (attr_text n "eq") with
  | Some x => if cName (attr_text n "var") then Some x else None
  | None => None
  end.
(* evaluating a list of definitions once, one after the other, each with the values
   defined before: (node, value) for each of them and the resulting constants *)
Fixpoint seq_values (e : cenv T) (l : list node) : list (node * option T) :=
  match l with
  | [] => []
  | n :: r => (n, def_value e n) ::
      seq_values (match def_value e n with Some x => (attr_text n "var", x) :: e | None => e end) r
  end.
Fixpoint seq_env (e : cenv T) (l : list node) : cenv T :=
  match l with
  | [] => e
  | n :: r => seq_env (match def_value e n with Some x => (attr_text n "var", x) :: e | None => e end) r
  end.
(* C56: the definitions executed by a program are those of the document, once each, in
   document order, each with the values defined before *)
Definition in_document_order (consts : cenv T) (root : node) (s : pst T) : Prop :=
  psLog s = seq_values consts (document_defs root) /\ psEnv s = seq_env consts (document_defs root).
End Seq.

(* ---- documents in which the program finds everything in document order ---- *)
(* a node with a definition somewhere in it *)
Definition loud (n : node) : bool := match doc_defs n with [] => false | _ => true end.
Definition loud_opt (o : option node) : list node := match o with Some n => filter loud [n] | None => [] end.
(* definitions stand only in <calc> elements directly below n, and these have no
   definitions inside *)
Definition flat_calc (n : node) : Prop := nName n = "calc"%string /\ docs_defs (nKids n) = [].
Definition only_calcs (n : node) : Prop := Forall flat_calc (filter loud (nKids n)).
(* the same for a child which may be missing *)
Definition only_calcs_opt (o : option node) : Prop := match o with Some n => only_calcs n | None => True end.

Definition orderly_lattice (n : node) : Prop :=
  flat_calc n \/
  loud n = false \/
  ((nName n = "wave" \/ nName n = "screen" \/ nName n = "background")%string /\ only_calcs n).
Definition orderly_beam (n : node) : Prop :=
  flat_calc n \/
  loud n = false \/
  (nName n = "particle"%string /\ only_calcs n) \/
  (* time, position, momentum are the first children with these names *)
  (nName n = "bunch"%string /\
   filter loud (nKids n) =
     filter loud (filter is_calc (nKids n)) ++ loud_opt (child n "time") ++ loud_opt (child n "position") ++ loud_opt (child n "momentum") /\
   Forall flat_calc (filter loud (filter is_calc (nKids n))) /\
   only_calcs_opt (child n "time") /\ only_calcs_opt (child n "position") /\ only_calcs_opt (child n "momentum")) \/
  (nName n = "SDDS"%string /\ filter loud (nKids n) = loud_opt (child n "dir") /\ only_calcs_opt (child n "dir")).
Definition orderly_tracking (n : node) : Prop :=
  flat_calc n \/ loud n = false \/ (nName n = "fel1d"%string /\ only_calcs n).
Definition orderly_observer (n : node) : Prop :=
  flat_calc n \/ loud n = false \/ (nName n <> "calc"%string /\ only_calcs n).
Definition kids_opt (P : node -> Prop) (o : option node) : Prop := match o with Some n => Forall P (nKids n) | None => True end.

(* A document is orderly if
   - the definitions directly below the root come before all sections which contain
     definitions, and the sections come in the order lattice, beam, tracking, observer;
     definitions are not in other nodes, or in a second section of the same name;
   - there are no definitions within undulators and dipoles;
   - the definitions in the other elements of the sections are their direct children,
     in bunches also the children of <time>, <position>, <momentum>, and in SDDS bunches
     the children of <dir>. *)
Definition orderly (root : node) : Prop :=
  filter loud (nKids root) =
    filter loud (filter is_calc (nKids root)) ++
    loud_opt (child root "lattice") ++ loud_opt (child root "beam") ++
    loud_opt (child root "tracking") ++ loud_opt (child root "observer") /\
  Forall flat_calc (filter loud (filter is_calc (nKids root))) /\
  kids_opt orderly_lattice (child root "lattice") /\ kids_opt orderly_beam (child root "beam") /\
  kids_opt orderly_tracking (child root "tracking") /\ kids_opt orderly_observer (child root "observer").

(* ---- the definitions which the program visits, in any document ---- *)
Definition calcs_of (n : node) : list node := filter is_calc (nKids n).
Definition calcs_opt (o : option node) : list node := match o with Some n => calcs_of n | None => [] end.
Definition section_of (f : node -> list node) (o : option node) : list node :=
  match o with Some n => flat_map f (nKids n) | None => [] end.
Definition visit_lattice (n : node) : list node :=
  if is_calc n then [n]
  else if String.eqb (nName n) "undulator" then calcs_of n ++ calcs_of n
  else if String.eqb (nName n) "dipole" then calcs_of n ++ calcs_of n
  else calcs_of n.
Definition visit_beam (n : node) : list node :=
  if is_calc n then [n]
  else if String.eqb (nName n) "particle" then calcs_of n
  else if String.eqb (nName n) "bunch" then
    calcs_of n ++ calcs_opt (child n "time") ++ calcs_opt (child n "position") ++ calcs_opt (child n "momentum") ++
    calcs_opt (child n "correlations")
  else if String.eqb (nName n) "SDDS" then calcs_opt (child n "dir") ++ calcs_opt (child n "correlations")
  else [].
Definition visit_tracking (n : node) : list node :=
  if is_calc n then [n] else if String.eqb (nName n) "fel1d" then calcs_of n else [].
Definition visit_observer (n : node) : list node := if is_calc n then [n] else calcs_of n.
Definition visited (root : node) : list node :=
  calcs_of root ++ section_of visit_lattice (child root "lattice") ++ section_of visit_beam (child root "beam") ++
  section_of visit_tracking (child root "tracking") ++ section_of visit_observer (child root "observer").

(* ---- C57 ---- *)
(* sums over the particles of a bunch *)
Section Totals.
Context {T : Type} {NT : Num T}.
Definition total (f : particle T -> T) (b : bunch T) : T := fold_right (fun p s => nadd (f p) s) (nZ 0) b.
End Totals.

(* ---- definitions which may be evaluated twice ---- *)
Definition lookup {T} (e : cenv T) (v : string) : option T :=
  match find (fun b => String.eqb (fst b) v) e with Some b => Some (snd b) | None => None end.
(* the value of an expression depends only on the names which it reads *)
Definition local_calc {T} {CT : Calc T} (reads : string -> string -> Prop) : Prop :=
  forall t e1 e2, (forall v, reads t v -> lookup e1 v = lookup e2 v) -> cEval e1 t = cEval e2 t.
(* no definition reads a name which it or a later one defines *)
Fixpoint repeatable (reads : string -> string -> Prop) (l : list node) : Prop :=
  match l with
  | [] => True
  | n :: r => (forall m, In m (n :: r) -> ~ reads (attr_text n "eq") (attr_text m "var")) /\ repeatable reads r
  end.

(* the value of a numeric attribute for given constants; 0 if it cannot be evaluated *)
Definition num_attr {T} {NT : Num T} {CT : Calc T} (e : cenv T) (n : node) (k : string) : T :=
  match cEval e (attr_text n k) with Some x => x | None => nZ 0 end.
(* the number of macro-particles asked for *)
Definition n_attr {T} {CT : Calc T} (n : node) : Z :=
  match attr n "n" with Some t => cInt t | None => 1%Z end.
