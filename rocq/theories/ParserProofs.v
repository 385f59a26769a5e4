(* Which definitions of an input file are executed, and when. *)
From Coq Require Import ZArith String List Bool.
From Verif Require Import Base Num VecModel ParticleModel TraceModel BunchModel DriverModel LoggerModel
  ElementModel FelModel ObserverModel ParserModel ParserSpec.
Import ListNotations.

(* ---- doc_defs ---- *)
Lemma doc_defs_eq : forall n, doc_defs n = (if is_def n then [n] else []) ++ docs_defs (nKids n).
Proof.
  intros [a b l]; reflexivity.
Qed.
Lemma loud_false : forall n, loud n = false -> doc_defs n = [].
Proof. intros n; unfold loud; destruct (doc_defs n); [auto|discriminate]. Qed.
Lemma docs_loud : forall l, docs_defs l = docs_defs (filter loud l).
Proof.
  induction l as [|n r IH]; [reflexivity|]; unfold docs_defs in *; cbn [flat_map filter].
  destruct (loud n) eqn:E; cbn [flat_map]; rewrite IH; [reflexivity|]; now rewrite (loud_false _ E).
Qed.
Lemma docs_app : forall a b, docs_defs (a ++ b) = docs_defs a ++ docs_defs b.
Proof. intros; apply flat_map_app. Qed.
Lemma docs_opt : forall o, docs_defs (loud_opt o) = match o with Some n => doc_defs n | None => [] end.
Proof.
  intros [n|]; [|reflexivity]; unfold loud_opt; rewrite <- docs_loud; unfold docs_defs; cbn; now rewrite app_nil_r.
Qed.
Lemma is_def_calc : forall n, is_def n = true -> is_calc n = true.
Proof. intros n; unfold is_def; intros H; apply andb_prop in H; apply H. Qed.
Lemma is_def_var : forall n, is_calc n = true -> (is_def n = true <-> attr_text n "var" <> EmptyString).
Proof.
  intros n H; unfold is_def, attr_text, attr; unfold is_calc in H; rewrite H; cbn [andb].
  destruct (find _ (nAttrs n)) as [[k v]|]; [|split; [discriminate|congruence]]; cbn [snd].
  destruct v; cbn; split; intros; congruence.
Qed.

Section Exec.
Context {T : Type} {NT : Num T} {TT : Trans T} {CT : Calc T} {WT : World T}.

(* executing a list of <calc> elements *)
Definition exec (l : list node) (s : pst T) : pst T := fold_left (fun s n => p_define n (p_print n s)) l s.
Lemma exec_app : forall a b s, exec (a ++ b) s = exec b (exec a s).
Proof. intros; apply fold_left_app. Qed.

(* m executes the elements of l, or the first ones of them if it fails *)
Definition execs {A} (m : pm T A) (l : list node) : Prop := forall s,
  exists l1 l2, l = l1 ++ l2 /\ fst (m s) = exec l1 s /\ forall a, snd (m s) = Ok a -> l2 = [].

Lemma ex_ret : forall A (a : A), execs (pret a) [].
Proof. intros A a s; exists [], []; auto. Qed.
Lemma ex_lift : forall A (r : res A), execs (plift r) [].
Proof. intros A r s; exists [], []; auto. Qed.
Lemma ex_throw : forall A l, execs (@pthrow T A) l.
Proof. intros A l s; exists [], l; cbn; repeat split; discriminate. Qed.
Lemma ex_text : forall t, execs (p_text t) [].
Proof. intros t s; exists [], []; auto. Qed.
Lemma ex_double : forall n k, execs (p_double n k) [].
Proof. intros; apply ex_text. Qed.
Lemma ex_int : forall t, execs (p_int t) [].
Proof. intros t s; exists [], []; auto. Qed.
Lemma ex_calc : forall n, execs (p_calc n) [n].
Proof. intros n s; exists [n], []; cbn; auto. Qed.

Lemma ex_bind : forall A B (m : pm T A) (f : A -> pm T B) l1 l2,
  execs m l1 -> (forall a, execs (f a) l2) -> execs (pbind m f) (l1 ++ l2).
Proof.
  intros A B m f l1 l2 Hm Hf s; unfold pbind; destruct (Hm s) as (a & b & E & F & G).
  destruct (m s) as [s' r]; cbn [fst snd] in *; subst s'.
  destruct r as [x|e| |].
  - specialize (G x eq_refl); subst b; rewrite app_nil_r in E; subst a.
    destruct (Hf x (exec l1 s)) as (c & d & E' & F' & G').
    exists (l1 ++ c), d; rewrite E', app_assoc, exec_app; auto.
  - exists a, (b ++ l2); rewrite E, app_assoc; repeat split; discriminate.
  - exists a, (b ++ l2); rewrite E, app_assoc; repeat split; discriminate.
  - exists a, (b ++ l2); rewrite E, app_assoc; repeat split; discriminate.
Qed.
(* the first part executes nothing *)
Lemma ex_then : forall A B (m : pm T A) (f : A -> pm T B) l,
  execs m [] -> (forall a, execs (f a) l) -> execs (pbind m f) l.
Proof. intros A B m f l; apply (ex_bind A B m f [] l). Qed.
Lemma ex_last : forall A B (m : pm T A) (f : A -> pm T B) l,
  execs m l -> (forall a, execs (f a) []) -> execs (pbind m f) l.
Proof. intros A B m f l H1 H2; rewrite <- (app_nil_r l); now apply ex_bind. Qed.
Lemma ex_need : forall A B (o : option A) (f : A -> pm T B) l,
  (forall a, o = Some a -> execs (f a) l) -> execs (pbind (pneed o) f) l.
Proof.
  intros A B [a|] f l H.
  - exact (H a eq_refl).
  - intros s; exists [], l; cbn; repeat split; discriminate.
Qed.
Lemma ex_popt : forall A B (o : option A) (d : B) (f : A -> pm T B) l,
  (o = None -> l = []) -> (forall a, o = Some a -> execs (f a) l) -> execs (popt o d f) l.
Proof. intros A B [a|] d f l H0 H1; cbn; [now apply H1|rewrite (H0 eq_refl); apply ex_ret]. Qed.
Lemma ex_fold : forall S (f : S -> node -> pm T S) g l a,
  (forall a n, execs (f a n) (g n)) -> execs (pfold f l a) (flat_map g l).
Proof.
  intros S f g l; induction l as [|n r IH]; intros a H; cbn [pfold flat_map]; [apply ex_ret|].
  apply ex_bind; auto.
Qed.
Lemma calcs_flat : forall n, calcs_of n = flat_map (fun m => if is_calc m then [m] else []) (nKids n).
Proof. intros n; unfold calcs_of; induction (nKids n) as [|m r IH]; [reflexivity|]; cbn; destruct (is_calc m); now rewrite IH. Qed.
Lemma ex_calcs : forall n, execs (p_calcs n) (calcs_of n).
Proof. intros n; rewrite calcs_flat; apply ex_fold; intros _ m; destruct (is_calc m); [apply ex_calc|apply ex_ret]. Qed.
Lemma ex_vec : forall n, execs (p_vec n) [].
Proof. intros n; unfold p_vec; repeat (apply ex_then; [apply ex_double|intros]); apply ex_ret. Qed.
Lemma ex_child_vec : forall n k, execs (p_child_vec n k) [].
Proof. intros n k; apply ex_need; intros; apply ex_vec. Qed.
End Exec.

Create HintDb exdb.
Ltac ex0 :=
  intros;
  lazymatch goal with
  | |- execs (pbind (pneed _) _) _ => apply ex_need; intros; ex0
  | |- execs (pbind _ _) _ => apply ex_then; [solve [ex0] | ex0]
  | |- execs (pret _) [] => apply ex_ret
  | |- execs (plift _) [] => apply ex_lift
  | |- execs pthrow _ => apply ex_throw
  | |- execs (p_double _ _) _ => apply ex_double
  | |- execs (p_text _) _ => apply ex_text
  | |- execs (p_int _) _ => apply ex_int
  | |- execs (p_vec _) _ => apply ex_vec
  | |- execs (p_child_vec _ _) _ => apply ex_child_vec
  | |- execs (popt _ _ _) [] => apply ex_popt; [reflexivity|intros; ex0]
  | |- execs (if ?b then _ else _) _ => destruct b; ex0
  | |- execs (let _ := _ in _) _ => cbv zeta; ex0
  | |- _ => auto with exdb
  end.

Section Parts.
Context {T : Type} {NT : Num T} {TT : Trans T} {CT : Calc T} {WT : World T}.
Variable consts : cenv T.

Ltac calcs1 := apply ex_last; [apply ex_calcs|solve [ex0]].

Lemma ex_planar : forall n, execs (p_planar n) (calcs_of n).
Proof. intros; calcs1. Qed.
Lemma ex_tgu : forall n, execs (p_tgu n) (calcs_of n).
Proof. intros; calcs1. Qed.
Lemma ex_hard : forall n, execs (p_hard n) (calcs_of n).
Proof. intros; calcs1. Qed.
Lemma ex_soft : forall n, execs (p_soft n) (calcs_of n).
Proof. intros; calcs1. Qed.
Lemma ex_wave : forall n, execs (p_wave n) [].
Proof. intros; unfold p_wave; ex0. Qed.
Lemma ex_packet : forall n, execs (p_packet n) [].
Proof. intros; unfold p_packet; ex0. Qed.

Lemma ex_element : forall n, execs (p_element n) (visit_lattice n).
Proof.
  intros n; unfold p_element, visit_lattice; cbv zeta.
  destruct (is_calc n); [apply ex_last; [apply ex_calc|ex0]|].
  destruct (String.eqb_spec (nName n) "undulator") as [E|_].
  { apply ex_bind; [apply ex_calcs|intros _].
    destruct (String.eqb _ "planar"); [apply ex_last; [apply ex_planar|ex0]|].
    destruct (String.eqb _ "transverse gradient"); [apply ex_last; [apply ex_tgu|ex0]|apply ex_throw]. }
  destruct (String.eqb_spec (nName n) "wave") as [E|_].
  { rewrite E; cbn [String.eqb Ascii.eqb Bool.eqb].
    apply ex_last; [apply ex_calcs|intros _].
    destruct (String.eqb _ "gaussian"); [apply ex_last; [apply ex_wave|ex0]|].
    destruct (String.eqb _ "packet"); [apply ex_last; [apply ex_packet|ex0]|apply ex_throw]. }
  destruct (String.eqb_spec (nName n) "screen") as [E|_].
  { rewrite E; cbn [String.eqb Ascii.eqb Bool.eqb]. apply ex_last; [apply ex_calcs|ex0]. }
  destruct (String.eqb_spec (nName n) "dipole") as [E|_].
  { apply ex_bind; [apply ex_calcs|intros _].
    destruct (String.eqb _ "hard edge"); [apply ex_last; [apply ex_hard|ex0]|].
    destruct (String.eqb _ "soft edge"); [apply ex_last; [apply ex_soft|ex0]|apply ex_throw]. }
  destruct (String.eqb _ "background"); [|apply ex_throw].
  apply ex_last; [apply ex_calcs|ex0].
Qed.
Lemma ex_lattice : forall root, execs (p_lattice root) (section_of visit_lattice (child root "lattice")).
Proof.
  intros root; apply ex_need; intros l E; rewrite E; cbn [section_of].
  apply ex_fold; intros a n; apply ex_last; [apply ex_element|ex0].
Qed.

Lemma ex_log : forall n ib b, execs (p_log n ib b) [].
Proof. intros; unfold p_log; ex0. Qed.
#[local] Hint Resolve ex_log : exdb.
Lemma ex_correlations : forall S n (f : Z -> Z -> T -> S -> res S) a,
  execs (p_correlations n f a) (calcs_opt (child n "correlations")).
Proof.
  intros S n f a; unfold p_correlations; apply ex_popt; intros c; intros; [now rewrite c|].
  rewrite H; cbn [calcs_opt]; apply ex_last; [apply ex_calcs|intros _].
  replace (@nil node) with (flat_map (fun _ : node => @nil node) (nKids c)) by (induction (nKids c); auto).
  apply ex_fold; intros a' m; ex0.
Qed.
Lemma ex_particle : forall n b, execs (p_particle n b) (calcs_of n).
Proof.
  intros n b; unfold p_particle; do 3 (apply ex_then; [ex0|intros]); cbv zeta.
  apply ex_last; [apply ex_calcs|intros]. ex0.
Qed.
Lemma ex_bunch : forall i n b, execs (p_bunch i n b)
  (calcs_of n ++ calcs_opt (child n "time") ++ calcs_opt (child n "position") ++ calcs_opt (child n "momentum") ++
   calcs_opt (child n "correlations")).
Proof.
  intros i n b; unfold p_bunch; apply ex_then; [ex0|intros]; cbv zeta; do 2 (apply ex_then; [ex0|intros]).
  apply ex_bind; [apply ex_calcs|intros _].
  apply ex_bind.
  { apply ex_popt; intros c; intros; [now rewrite c|]. rewrite H; cbn [calcs_opt]. apply ex_last; [apply ex_calcs|ex0]. }
  intros t0; apply ex_need; intros pn Ep; rewrite Ep; cbn [calcs_opt].
  apply ex_bind; [apply ex_calcs|intros _].
  do 5 (apply ex_then; [ex0|intros]).
  apply ex_need; intros mn Em; rewrite Em; cbn [calcs_opt].
  apply ex_bind; [apply ex_calcs|intros _].
  do 5 (apply ex_then; [ex0|intros]).
  apply ex_last; [apply ex_correlations|]. ex0.
Qed.
Lemma ex_sdds : forall n b, execs (p_sdds n b) (calcs_opt (child n "dir") ++ calcs_opt (child n "correlations")).
Proof.
  intros n b; unfold p_sdds; apply ex_need; intros fn _.
  apply ex_bind.
  { apply ex_popt; intros c; intros; [now rewrite c|]. rewrite H; cbn [calcs_opt]. apply ex_last; [apply ex_calcs|ex0]. }
  intros dir; apply ex_then; [ex0|intros bu].
  apply ex_last; [apply ex_correlations|]. ex0.
Qed.
Lemma ex_entry : forall b n, execs (p_entry b n) (visit_beam n).
Proof.
  intros b n; unfold p_entry, visit_beam. apply ex_last; [|ex0].
  destruct (is_calc n); [apply ex_last; [apply ex_calc|ex0]|].
  destruct (String.eqb _ "particle"); [apply ex_particle|].
  destruct (String.eqb _ "bunch"); [apply ex_bunch|].
  destruct (String.eqb _ "SDDS"); [apply ex_sdds|].
  destruct (String.eqb _ "probe"); [unfold p_probe; ex0|apply ex_throw].
Qed.
Lemma ex_beam : forall root, execs (p_beam root) (section_of visit_beam (child root "beam")).
Proof.
  intros root; apply ex_need; intros l E; rewrite E; cbn [section_of].
  apply ex_last; [apply ex_fold; intros; apply ex_entry|ex0].
Qed.

Lemma ex_fel : forall dt n, execs (p_fel dt n) [].
Proof. intros; unfold p_fel; ex0. Qed.
#[local] Hint Resolve ex_fel : exdb.
Lemma ex_watch : forall k n, execs (p_watch k n) [].
Proof. intros; unfold p_watch; ex0. Qed.
#[local] Hint Resolve ex_watch : exdb.
Lemma ex_interaction : forall ts p n, execs (p_interaction ts p n) (visit_tracking n).
Proof.
  intros ts p n; unfold p_interaction, visit_tracking.
  destruct (is_calc n); [apply ex_last; [apply ex_calc|ex0]|].
  destruct (String.eqb _ "fel1d").
  { apply ex_last; [apply ex_calcs|]. ex0. }
  destruct (String.eqb _ "watch"); [apply ex_then; [apply ex_watch|ex0]|].
  destruct (String.eqb _ "watch-sdds"); [apply ex_then; [apply ex_watch|ex0]|apply ex_throw].
Qed.
Lemma ex_tracking : forall root bm, execs (p_tracking root bm) (section_of visit_tracking (child root "tracking")).
Proof.
  intros root bm; apply ex_need; intros t E; rewrite E; cbn [section_of].
  destruct (String.eqb _ "Vay"); [|apply ex_throw].
  apply ex_need; intros ts _; apply ex_then; [ex0|intros dt]; apply ex_need; intros nst _; apply ex_then; [ex0|intros nots].
  cbv zeta; apply ex_last; [apply ex_fold; intros; apply ex_interaction|ex0].
Qed.

Lemma ex_source : forall n, execs (p_source n) [].
Proof. intros; unfold p_source; ex0. Qed.
#[local] Hint Resolve ex_source : exdb.
Lemma ex_observer : forall l n, execs (p_observer l n) (visit_observer n).
Proof.
  intros l n; unfold p_observer, visit_observer.
  destruct (is_calc n); [apply ex_last; [apply ex_calc|ex0]|].
  destruct (String.eqb _ "snapshot").
  { apply ex_need; intros fn _; apply ex_last; [apply ex_calcs|]; ex0. }
  destruct (String.eqb _ "screen").
  { apply ex_need; intros fn _; apply ex_last; [apply ex_calcs|]; ex0. }
  destruct (String.eqb _ "mesh").
  { apply ex_need; intros fn _; apply ex_last; [apply ex_calcs|]; ex0. }
  destruct (String.eqb _ "point"); [|apply ex_throw].
  apply ex_need; intros fn _; apply ex_last; [apply ex_calcs|]; ex0.
Qed.
Lemma ex_observers : forall root, execs (p_observers root) (section_of visit_observer (child root "observer")).
Proof.
  intros root; apply ex_need; intros o E; rewrite E; cbn [section_of]. apply ex_fold; intros; apply ex_observer.
Qed.

(* the whole program *)
Lemma program_exec : forall root, exists l1 l2, visited root = l1 ++ l2 /\
  fst (parse_input consts root) = exec l1 (PST consts [] []) /\
  forall i, snd (parse_input consts root) = Ok i -> l2 = [].
Proof.
  intros root; unfold parse_input, p_program.
  assert (H : execs (pbind (p_calcs root) (fun _ => pbind (p_lattice root) (fun els => pbind (p_beam root) (fun pb =>
      pbind (p_tracking root (pbBeam pb)) (fun tr => pbind (p_observers root) (fun obs =>
      pret (PIN els (fst tr) (pbLogs pb) (pbProbe pb) (ptWatch (snd tr)) (ptFel (snd tr)) obs))))))) (visited root)).
  { unfold visited. apply ex_bind; [apply ex_calcs|intros]. apply ex_bind; [apply ex_lattice|intros].
    apply ex_bind; [apply ex_beam|intros]. apply ex_bind; [apply ex_tracking|intros].
    apply ex_last; [apply ex_observers|ex0]. }
  exact (H (PST consts [] [])).
Qed.

(* ---- what an execution leaves behind ---- *)
Lemma define_step : forall n s, is_calc n = true ->
  let s' := p_define n (p_print n s) in
  psLog s' = psLog s ++ (if is_def n then [(n, def_value (psEnv s) n)] else []) /\
  psEnv s' = (if is_def n then match def_value (psEnv s) n with Some x => (attr_text n "var", x) :: psEnv s | None => psEnv s end
              else psEnv s).
Proof.
  intros n s C s'.
  assert (E1 : psLog (p_print n s) = psLog s /\ psEnv (p_print n s) = psEnv s)
    by (unfold p_print; destruct (attr_text n "print"); auto).
  destruct E1 as [E1 E2]. subst s'; unfold p_define; rewrite E2.
  destruct (is_def n) eqn:D.
  - apply (is_def_var _ C) in D. unfold def_value, define; destruct (attr_text n "var") eqn:V; [congruence|].
    destruct (cEval _ _); [destruct (cName _)|]; cbn [psLog psEnv]; rewrite E1, ?E2; auto.
  - destruct (attr_text n "var") eqn:V.
    + rewrite E1, E2, app_nil_r; auto.
    + assert (is_def n = true) by (apply (is_def_var _ C); congruence). congruence.
Qed.
Lemma exec_seq : forall l s, Forall (fun n => is_calc n = true) l ->
  psLog (exec l s) = psLog s ++ seq_values (psEnv s) (filter is_def l) /\
  psEnv (exec l s) = seq_env (psEnv s) (filter is_def l).
Proof.
  induction l as [|n r IH]; intros s H; [cbn; now rewrite app_nil_r|].
  inversion_clear H. destruct (define_step n s H0) as [A B].
  change (exec (n :: r) s) with (exec r (p_define n (p_print n s))).
  destruct (IH (p_define n (p_print n s)) H1) as [C D]. rewrite C, D, A, B; cbn [filter].
  destruct (is_def n); [|rewrite app_nil_r; auto].
  cbn [seq_values seq_env]. rewrite <- app_assoc; auto.
Qed.

Lemma calcs_calc : forall n, Forall (fun n => is_calc n = true) (calcs_of n).
Proof. intros n; apply Forall_forall; intros m H; apply filter_In in H; apply H. Qed.
Lemma opt_calc : forall o, Forall (fun n => is_calc n = true) (calcs_opt o).
Proof. intros [n|]; [apply calcs_calc|constructor]. Qed.
Lemma section_calc : forall f o, (forall n, Forall (fun n => is_calc n = true) (f n)) ->
  Forall (fun n => is_calc n = true) (section_of f o).
Proof.
  intros f [n|] H; [|constructor]; cbn; induction (nKids n); cbn; [constructor|]; apply Forall_app; auto.
Qed.
Lemma visited_calc : forall root, Forall (fun n => is_calc n = true) (visited root).
Proof.
  intros root; unfold visited.
  rewrite !Forall_app; split; [apply calcs_calc|]; split; [|split; [|split]]; apply section_calc; intros n.
  - unfold visit_lattice; destruct (is_calc n) eqn:E; [auto|].
    destruct (String.eqb _ _); [apply Forall_app; auto using calcs_calc|].
    destruct (String.eqb _ _); [apply Forall_app; auto using calcs_calc|apply calcs_calc].
  - unfold visit_beam; destruct (is_calc n) eqn:E; [auto|].
    destruct (String.eqb _ _); [apply calcs_calc|].
    destruct (String.eqb _ _); [repeat (apply Forall_app; split); auto using calcs_calc, opt_calc|].
    destruct (String.eqb _ _); [apply Forall_app; auto using opt_calc|constructor].
  - unfold visit_tracking; destruct (is_calc n) eqn:E; [auto|].
    destruct (String.eqb _ _); [apply calcs_calc|constructor].
  - unfold visit_observer; destruct (is_calc n) eqn:E; [auto|apply calcs_calc].
Qed.

Lemma parse_visits : forall root, exists l1 l2, filter is_def (visited root) = l1 ++ l2 /\
  psLog (fst (parse_input consts root)) = seq_values consts l1 /\
  psEnv (fst (parse_input consts root)) = seq_env consts l1 /\
  forall i, snd (parse_input consts root) = Ok i -> l2 = [].
Proof.
  intros root; destruct (program_exec root) as (l1 & l2 & E & F & G).
  pose proof (visited_calc root) as V; rewrite E in V; apply Forall_app in V; destruct V as [V _].
  exists (filter is_def l1), (filter is_def l2); rewrite E, filter_app, F.
  destruct (exec_seq l1 (PST consts [] []) V) as [A B].
  repeat split; [exact A|exact B|]. intros i Hi; now rewrite (G i Hi).
Qed.

(* ---- orderly documents ---- *)
Lemma defs_of_calc : forall n, is_calc n = false -> doc_defs n = docs_defs (nKids n).
Proof.
  intros n H; rewrite doc_defs_eq; destruct (is_def n) eqn:E; [|reflexivity].
  apply is_def_calc in E; congruence.
Qed.
Lemma flat_defs : forall n, flat_calc n -> doc_defs n = filter is_def [n].
Proof. intros n [_ H]; rewrite doc_defs_eq, H, app_nil_r; reflexivity. Qed.
Lemma flat_is_calc : forall n, flat_calc n -> is_calc n = true.
Proof. intros n [H _]; unfold is_calc; now rewrite H. Qed.
Lemma loud_def : forall n, is_def n = true -> loud n = true.
Proof. intros n H; unfold loud; rewrite doc_defs_eq, H; reflexivity. Qed.
(* definitions among the calc children, when these are flat *)
Lemma filter_comm : forall A (f g : A -> bool) l, filter f (filter g l) = filter g (filter f l).
Proof.
  intros A f g l; induction l as [|a r IH]; [reflexivity|]; cbn.
  destruct (g a) eqn:G, (f a) eqn:F; cbn; rewrite ?G, ?F, IH; auto.
Qed.
Lemma def_loud : forall l, filter is_def (filter loud l) = filter is_def l.
Proof.
  intros l; rewrite filter_comm; induction (filter is_def l) as [|n r IH] eqn:E in l |- *; [reflexivity|].
  assert (H : In n (filter is_def l)) by (rewrite E; left; auto). apply filter_In in H; destruct H as [_ H].
  cbn; rewrite (loud_def n H); f_equal.
  destruct l as [|a l']; [discriminate|].
  clear IH; revert E; revert n r H; generalize (a :: l'); intros l.
  assert (K : forall m, In m (filter is_def l) -> is_def m = true) by (intros m Hm; apply filter_In in Hm; apply Hm).
  intros n r H E; rewrite E in K; clear E. assert (K' : forall m, In m r -> is_def m = true) by (intros; apply K; now right).
  clear K; induction r as [|m r IH]; [reflexivity|]; cbn; rewrite (loud_def m (K' m (or_introl eq_refl))).
  now rewrite IH by (intros; apply K'; now right).
Qed.
Lemma def_calcs : forall l, filter is_def (filter is_calc l) = filter is_def l.
Proof.
  induction l as [|n r IH]; [reflexivity|]; cbn. destruct (is_calc n) eqn:E; cbn; [now rewrite IH|].
  destruct (is_def n) eqn:D; [apply is_def_calc in D; congruence|exact IH].
Qed.
Lemma flats_defs : forall l, Forall flat_calc l -> docs_defs l = filter is_def l.
Proof.
  induction l as [|n r IH]; intros H; [reflexivity|]; inversion_clear H.
  unfold docs_defs in *; cbn [flat_map]; rewrite (IH H1), (flat_defs n H0); cbn; now destruct (is_def n).
Qed.
Lemma only_calcs_defs : forall n, only_calcs n -> docs_defs (nKids n) = filter is_def (calcs_of n).
Proof.
  intros n H; rewrite docs_loud, (flats_defs _ H), def_loud; unfold calcs_of; now rewrite def_calcs.
Qed.
Lemma quiet_calcs : forall n, loud n = false -> filter is_def (calcs_of n) = [].
Proof.
  intros n H; apply loud_false in H; rewrite doc_defs_eq in H; apply app_eq_nil in H; destruct H as [_ H].
  unfold calcs_of; rewrite def_calcs.
  induction (nKids n) as [|m r IH]; [reflexivity|]; unfold docs_defs in H; cbn [flat_map] in H; apply app_eq_nil in H; destruct H as [A B].
  cbn; rewrite doc_defs_eq in A; destruct (is_def m); [discriminate|]; auto.
Qed.
Lemma quiet_kid : forall n k c, loud n = false -> child n k = Some c -> loud c = false.
Proof.
  intros n k c H E; apply loud_false in H; rewrite doc_defs_eq in H; apply app_eq_nil in H; destruct H as [_ H].
  unfold child in E; apply find_some in E; destruct E as [E _].
  unfold loud; induction (nKids n) as [|m r IH]; [destruct E|].
  unfold docs_defs in H; cbn [flat_map] in H; apply app_eq_nil in H; destruct H as [A B].
  destruct E as [->|E]; [now rewrite A|auto].
Qed.
Lemma quiet_opt : forall n k, loud n = false -> filter is_def (calcs_opt (child n k)) = [].
Proof.
  intros n k H; destruct (child n k) as [c|] eqn:E; [|reflexivity]; cbn.
  apply quiet_calcs. eapply quiet_kid; eauto.
Qed.
Lemma quiet_def : forall n, loud n = false -> is_def n = false.
Proof. intros n H; destruct (is_def n) eqn:E; [apply loud_def in E; congruence|reflexivity]. Qed.

(* equal on orderly nodes *)
Lemma lattice_orderly : forall n, orderly_lattice n -> filter is_def (visit_lattice n) = doc_defs n.
Proof.
  intros n [H|[H|[N H]]].
  - rewrite (flat_defs n H); unfold visit_lattice; now rewrite (flat_is_calc n H).
  - rewrite (loud_false n H). pose proof (quiet_calcs n H) as Q. unfold visit_lattice.
    destruct (is_calc n); [cbn; now rewrite (quiet_def n H)|].
    destruct (String.eqb _ _); [now rewrite filter_app, Q|].
    destruct (String.eqb _ _); [now rewrite filter_app, Q|exact Q].
  - unfold visit_lattice.
    assert (C : is_calc n = false) by (unfold is_calc; destruct N as [ -> | [ -> | -> ] ]; reflexivity).
    rewrite C, (defs_of_calc n C), (only_calcs_defs n H).
    destruct N as [ -> | [ -> | -> ] ]; reflexivity.
Qed.
Lemma in_kid : forall n k c, child n k = Some c -> nName c = k.
Proof. intros n k c E; apply find_some in E; destruct E as [_ E]; now apply String.eqb_eq in E. Qed.
Lemma opt_defs : forall n k, k <> "calc"%string -> only_calcs_opt (child n k) ->
  docs_defs (loud_opt (child n k)) = filter is_def (calcs_opt (child n k)).
Proof.
  intros n k K H; rewrite docs_opt; destruct (child n k) as [c|] eqn:E; [|reflexivity]; cbn [calcs_opt only_calcs_opt] in *.
  rewrite <- (only_calcs_defs c H); apply defs_of_calc. unfold is_calc; rewrite (in_kid n k c E).
  now apply String.eqb_neq.
Qed.
(* a child whose name differs from those of the loud ones is quiet *)
Lemma other_quiet : forall n k c l, child n k = Some c -> filter loud (nKids n) = l ->
  Forall (fun m => nName m <> k) l -> loud c = false.
Proof.
  intros n k c l E F G. destruct (loud c) eqn:L; [|reflexivity]. exfalso.
  pose proof (in_kid n k c E) as K. apply find_some in E; destruct E as [E _].
  rewrite Forall_forall in G. apply (G c); [rewrite <- F; apply filter_In; auto|exact K].
Qed.
Lemma loud_opt_name : forall n k, Forall (fun m => nName m = k) (loud_opt (child n k)).
Proof.
  intros n k; destruct (child n k) as [c|] eqn:E; [|constructor]; cbn.
  destruct (loud c); constructor; [|constructor]. eapply in_kid; eauto.
Qed.
Lemma beam_orderly : forall n, orderly_beam n -> filter is_def (visit_beam n) = doc_defs n.
Proof.
  intros n [H|[H|[H|[H|H]]]];
    [| |destruct H as [N H]|destruct H as (N & H & F & Ht & Hp & Hm)|destruct H as (N & H & Hd)].
  - rewrite (flat_defs n H); unfold visit_beam; now rewrite (flat_is_calc n H).
  - rewrite (loud_false n H). pose proof (quiet_calcs n H) as Q. unfold visit_beam.
    destruct (is_calc n); [cbn; now rewrite (quiet_def n H)|].
    destruct (String.eqb _ _); [exact Q|].
    destruct (String.eqb _ _); [now rewrite !filter_app, Q, !quiet_opt|].
    destruct (String.eqb _ _); [now rewrite !filter_app, !quiet_opt|reflexivity].
  - assert (C : is_calc n = false) by (unfold is_calc; now rewrite N).
    unfold visit_beam; rewrite C, N, (defs_of_calc n C), (only_calcs_defs n H); reflexivity.
  - assert (C : is_calc n = false) by (unfold is_calc; now rewrite N).
    unfold visit_beam; rewrite C, N, (defs_of_calc n C); cbn [String.eqb Ascii.eqb Bool.eqb].
    assert (Q : filter is_def (calcs_opt (child n "correlations")) = []).
    { destruct (child n "correlations") as [c|] eqn:E; [|reflexivity]; cbn; apply quiet_calcs.
      eapply other_quiet; [exact E|exact H|].
      repeat (apply Forall_app; split).
      - eapply Forall_impl; [|exact F]; intros m [K _]; rewrite K; discriminate.
      - eapply Forall_impl; [|apply loud_opt_name]; intros m K; cbv beta in K; rewrite K; discriminate.
      - eapply Forall_impl; [|apply loud_opt_name]; intros m K; cbv beta in K; rewrite K; discriminate.
      - eapply Forall_impl; [|apply loud_opt_name]; intros m K; cbv beta in K; rewrite K; discriminate. }
    rewrite !filter_app, Q, app_nil_r.
    rewrite docs_loud, H, !docs_app, !opt_defs by (auto; discriminate).
    rewrite (flats_defs _ F), def_loud; reflexivity.
  - assert (C : is_calc n = false) by (unfold is_calc; now rewrite N).
    unfold visit_beam; rewrite C, N, (defs_of_calc n C); cbn [String.eqb Ascii.eqb Bool.eqb].
    assert (Q : filter is_def (calcs_opt (child n "correlations")) = []).
    { destruct (child n "correlations") as [c|] eqn:E; [|reflexivity]; cbn; apply quiet_calcs.
      eapply other_quiet; [exact E|exact H|].
      eapply Forall_impl; [|apply loud_opt_name]; intros m K; cbv beta in K; rewrite K; discriminate. }
    rewrite filter_app, Q, app_nil_r, docs_loud, H, opt_defs by (auto; discriminate); reflexivity.
Qed.
Lemma tracking_orderly : forall n, orderly_tracking n -> filter is_def (visit_tracking n) = doc_defs n.
Proof.
  intros n [H|[H|[N H]]].
  - rewrite (flat_defs n H); unfold visit_tracking; now rewrite (flat_is_calc n H).
  - rewrite (loud_false n H). pose proof (quiet_calcs n H) as Q. unfold visit_tracking.
    destruct (is_calc n); [cbn; now rewrite (quiet_def n H)|].
    destruct (String.eqb _ _); [exact Q|reflexivity].
  - assert (C : is_calc n = false) by (unfold is_calc; now rewrite N).
    unfold visit_tracking; rewrite C, N, (defs_of_calc n C), (only_calcs_defs n H); reflexivity.
Qed.
Lemma observer_orderly : forall n, orderly_observer n -> filter is_def (visit_observer n) = doc_defs n.
Proof.
  intros n [H|[H|[N H]]].
  - rewrite (flat_defs n H); unfold visit_observer; now rewrite (flat_is_calc n H).
  - rewrite (loud_false n H). pose proof (quiet_calcs n H) as Q. unfold visit_observer.
    destruct (is_calc n); [cbn; now rewrite (quiet_def n H)|exact Q].
  - assert (C : is_calc n = false) by (unfold is_calc; now apply String.eqb_neq).
    unfold visit_observer; rewrite C, (defs_of_calc n C), (only_calcs_defs n H); reflexivity.
Qed.
Lemma section_orderly : forall f (P : node -> Prop) root k, k <> "calc"%string -> (forall n, P n -> filter is_def (f n) = doc_defs n) ->
  kids_opt P (child root k) -> filter is_def (section_of f (child root k)) = docs_defs (loud_opt (child root k)).
Proof.
  intros f P root k K H G; rewrite docs_opt; destruct (child root k) as [c|] eqn:E; [|reflexivity]; cbn [section_of kids_opt] in *.
  rewrite defs_of_calc by (unfold is_calc; rewrite (in_kid root k c E); now apply String.eqb_neq).
  unfold docs_defs; induction (nKids c) as [|m r IH]; [reflexivity|]; inversion_clear G; cbn [flat_map].
  rewrite filter_app, H by auto; now rewrite IH.
Qed.
Lemma orderly_visits : forall root, orderly root -> filter is_def (visited root) = document_defs root.
Proof.
  intros root (H & F & Hl & Hb & Ht & Ho). unfold visited, document_defs.
  rewrite docs_loud, H, !docs_app, !filter_app.
  rewrite (flats_defs _ F), def_loud.
  rewrite (section_orderly _ _ root "lattice" ltac:(discriminate) lattice_orderly Hl).
  rewrite (section_orderly _ _ root "beam" ltac:(discriminate) beam_orderly Hb).
  rewrite (section_orderly _ _ root "tracking" ltac:(discriminate) tracking_orderly Ht).
  rewrite (section_orderly _ _ root "observer" ltac:(discriminate) observer_orderly Ho).
  reflexivity.
Qed.
Lemma orderly_run : forall root i s, orderly root -> parse_input consts root = (s, Ok i) ->
  in_document_order consts root s.
Proof.
  intros root i s H E; destruct (parse_visits root) as (l1 & l2 & A & B & C & D).
  rewrite E in B, C, D; cbn [fst snd] in *. specialize (D i eq_refl); subst l2; rewrite app_nil_r in A; subst l1.
  rewrite (orderly_visits root H) in B, C. split; assumption.
Qed.
End Parts.
