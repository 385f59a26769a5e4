(* Repeated evaluation of definitions; the bunches defined in an input file. *)
From Coq Require Import ZArith String List Bool Reals Lra Lia.
From Verif Require Import Base BaseFacts Num VecModel ParticleModel TraceModel BunchModel DriverModel LoggerModel
  ElementModel FelModel ObserverModel ParserModel ParserSpec ParserProofs TraceProofs2 DriverProofs DistSpec DistProofs.
Import ListNotations.

Section Twice.
Context {T : Type} {CT : Calc T}.
Variable reads : string -> string -> Prop.
Hypothesis HL : local_calc reads.

(* names defined successfully *)
Definition defined (e : cenv T) (l : list node) (v : string) : Prop :=
  exists m x, In (m, Some x) (seq_values e l) /\ attr_text m "var" = v.
Definition step_env (e : cenv T) (n : node) : cenv T :=
  match def_value e n with Some x => (attr_text n "var", x) :: e | None => e end.
Lemma lookup_cons : forall (e : cenv T) v w x, lookup ((v, x) :: e) w = if String.eqb v w then Some x else lookup e w.
Proof. intros; unfold lookup; cbn; destruct (String.eqb v w); reflexivity. Qed.
Lemma defined_cons : forall e n r v, defined e (n :: r) v <->
  (exists x, def_value e n = Some x /\ attr_text n "var" = v) \/ defined (step_env e n) r v.
Proof.
  intros e n r v; unfold defined; cbn [seq_values]; fold (step_env e n); split.
  - intros (m & x & [H|H] & E).
    + assert (n = m) by congruence; subst m. left; exists x; split; [congruence|exact E].
    + right; exists m, x; split; [exact H|exact E].
  - intros [(x & H & E)|(m & x & H & E)].
    + exists n, x; rewrite H; split; [left; reflexivity|exact E].
    + exists m, x; split; [right; exact H|exact E].
Qed.
Lemma env_frame : forall l e v, ~ defined e l v -> lookup (seq_env e l) v = lookup e v.
Proof.
  induction l as [|n r IH]; intros e v H; [reflexivity|]; cbn [seq_env]; fold (step_env e n).
  rewrite IH by (intros C; apply H; apply defined_cons; auto).
  unfold step_env; destruct (def_value e n) as [x|] eqn:E; [|reflexivity].
  rewrite lookup_cons; destruct (String.eqb_spec (attr_text n "var") v) as [F|_]; [|reflexivity].
  exfalso; apply H; apply defined_cons; left; exists x; auto.
Qed.
Lemma defined_In : forall l e v, defined e l v -> exists m, In m l /\ attr_text m "var" = v.
Proof.
  induction l as [|n r IH]; intros e v H; [destruct H as (m & x & [] & _)|].
  apply defined_cons in H; destruct H as [(x & _ & E)|H]; [exists n; split; [left|]; auto|].
  destruct (IH _ _ H) as (m & A & B); exists m; split; [right|]; auto.
Qed.
(* the second pass *)
Lemma second : forall l e1 e2, repeatable reads l -> (forall v, ~ defined e1 l v -> lookup e1 v = lookup e2 v) ->
  seq_values e2 l = seq_values e1 l /\ (forall v, lookup (seq_env e2 l) v = lookup (seq_env e1 l) v).
Proof.
  induction l as [|n r IH]; intros e1 e2 R A.
  - split; [reflexivity|]. intros v; symmetry; apply A. intros (m & x & [] & _).
  - destruct R as [R1 R2].
    assert (E : cEval e1 (attr_text n "eq") = cEval e2 (attr_text n "eq")).
    { apply HL; intros v Hv; apply A; intros D; apply defined_In in D; destruct D as (m & I & <-). exact (R1 m I Hv). }
    assert (V : def_value e2 n = def_value e1 n) by (unfold def_value; now rewrite E).
    cbn [seq_values seq_env]; fold (step_env e1 n) (step_env e2 n).
    destruct (IH (step_env e1 n) (step_env e2 n) R2) as [B C].
    { intros v Hv; unfold step_env; rewrite V. destruct (def_value e1 n) as [x|] eqn:D.
      - rewrite !lookup_cons; destruct (String.eqb_spec (attr_text n "var") v) as [_|N]; [reflexivity|].
        apply A; intros F; apply defined_cons in F; destruct F as [(y & _ & F)|F]; auto.
      - apply A; intros F; apply defined_cons in F; destruct F as [(y & F & _)|F]; [congruence|auto]. }
    rewrite B, V; auto.
Qed.
Lemma seq_app : forall a b e, seq_values e (a ++ b) = seq_values e a ++ seq_values (seq_env e a) b.
Proof. induction a as [|n r IH]; intros b e; [reflexivity|]; cbn [app seq_values seq_env]; now rewrite IH. Qed.
Lemma env_app : forall a b e, seq_env e (a ++ b) = seq_env (seq_env e a) b.
Proof. induction a as [|n r IH]; intros b e; [reflexivity|]; cbn [app seq_env]; now rewrite IH. Qed.
Lemma twice : forall l e, repeatable reads l ->
  seq_values e (l ++ l) = seq_values e l ++ seq_values e l /\
  (forall v, lookup (seq_env e (l ++ l)) v = lookup (seq_env e l) v).
Proof.
  intros l e R; rewrite seq_app, env_app.
  destruct (second l e (seq_env e l) R) as [A B]; [intros v H; symmetry; now apply env_frame|].
  rewrite A; auto.
Qed.
End Twice.

(* ---- bunches ---- *)
Lemma pbind_ok : forall T A B (m : pm T A) (f : A -> pm T B) s s' b, pbind m f s = (s', Ok b) ->
  exists a s1, m s = (s1, Ok a) /\ f a s1 = (s', Ok b).
Proof. intros T A B m f s s' b H; unfold pbind in H; destruct (m s) as [s1 [a|e| |]]; try discriminate; eauto. Qed.
Tactic Notation "pget" hyp(H) ident(a) ident(s1) ident(H1) := apply pbind_ok in H; destruct H as (a & s1 & H1 & H).

Section Bunches.
Context {T : Type} {NT : Num T} {TT : Trans T} {CT : Calc T} {WT : World T}.

Lemma fold_keep : forall A S (P : S -> Prop) (f : S -> A -> res S) l s s',
  (forall s a s', P s -> f s a = Ok s' -> P s') -> P s -> fold_res f l s = Ok s' -> P s'.
Proof.
  intros A S P f l; induction l as [|a r IH]; intros s s' H H0 E; cbn in E; [apply Ok_inj in E; now subst|].
  destruct (f s a) as [x|e| |] eqn:F; try discriminate; cbn in E; eauto.
Qed.
Lemma put_nop : forall (d d' : dist T) i k v, d_put d i k v = Ok d' -> dNOP d' = dNOP d.
Proof.
  intros d d' i k v H; unfold d_put in H.
  bget H as a Ha; bget H as b Hb; bget H as c Hc; apply Ok_inj in H; now subst.
Qed.
Lemma scale_nop : forall k f (d d' : dist T), d_scale k f d = Ok d' -> dNOP d' = dNOP d.
Proof.
  intros k f d d' H; unfold d_scale in H; destruct (d_dim_ok d k); [|apply Ok_inj in H; now subst].
  eapply (fold_keep _ _ (fun x => dNOP x = dNOP d)) in H; [exact H| |reflexivity].
  intros s a s' E F; cbv beta in F; bget F as v Hv; apply put_nop in F; congruence.
Qed.
Lemma gaussian_nop : forall k f (d d' : dist T), d_gaussian k f d = Ok d' -> dNOP d' = dNOP d.
Proof.
  intros k f d d' H; unfold d_gaussian in H; destruct (d_dim_ok d k); [|apply Ok_inj in H; now subst].
  eapply (fold_keep _ _ (fun x => dNOP x = dNOP d)) in H; [exact H| |reflexivity].
  intros s a s' E F; cbv beta in F; apply put_nop in F; congruence.
Qed.
Lemma correlate_nop : forall i k f (d d' : dist T), d_correlate i k f d = Ok d' -> dNOP d' = dNOP d.
Proof.
  intros i k f d d' H; unfold d_correlate in H; destruct (_ && _); [|apply Ok_inj in H; now subst].
  eapply (fold_keep _ _ (fun x => dNOP x = dNOP d)) in H; [exact H| |reflexivity].
  intros s a s' E F; cbv beta in F; bget F as v Hv; bget F as u Hu; apply put_nop in F; congruence.
Qed.
Lemma dist_nop : forall i nop bg a b c d e f g (di : dist T), p_dist i nop bg a b c d e f g = Ok di -> dNOP di = nop.
Proof.
  intros i nop bg a b c d e f g di H; unfold p_dist in H.
  bget H as d0 H0; bget H as d1 H1; bget H as d2 H2; bget H as d3 H3; bget H as d4 H4; bget H as d5 H5.
  apply gaussian_nop in H, H5, H4, H2, H1.
  assert (E : dNOP d3 = dNOP d2).
  { destruct (negb _); [now apply scale_nop in H3|]. destruct (negb _); [now apply gaussian_nop in H3|now apply scale_nop in H3]. }
  assert (F : dNOP d0 = nop).
  { unfold dist_new in H0; bget H0 as n Hn; destruct (Z.ltb n 0); [discriminate|]; apply Ok_inj in H0; now subst. }
  congruence.
Qed.
Lemma correlations_nop : forall n (d d' : dist T) s s', p_correlations n d_correlate d s = (s', Ok d') -> dNOP d' = dNOP d.
Proof.
  intros n d d' s s' H; unfold p_correlations in H; destruct (child n "correlations") as [c|]; cbn [popt] in H.
  2:{ unfold pret in H; congruence. }
  pget H u s1 H1; clear H1.
  assert (G : forall l (d d' : dist T) s s',
    pfold (fun a m => if String.eqb (nName m) "linear" then
        pbind (pneed (attr m "indep")) (fun i => pbind (p_text i) (fun i => pbind (plift (to_int (n_trunc i))) (fun ind =>
        pbind (pneed (attr m "dep")) (fun d => pbind (p_text d) (fun d => pbind (plift (to_int (n_trunc d))) (fun dep =>
        pbind (pneed (attr m "factor")) (fun f' => pbind (p_text f') (fun fac => plift (d_correlate ind dep fac a)))))))))
      else pthrow) l d s = (s', Ok d') -> dNOP d' = dNOP d).
  { clear. induction l as [|m r IH]; intros d d' s s' H; cbn [pfold] in H; [unfold pret in H; congruence|].
    pget H x s1 H1. apply IH in H; rewrite H; clear IH H.
    destruct (String.eqb _ _); [|discriminate].
    pget H1 a s2 H2; pget H1 b s3 H3; pget H1 c s4 H4; pget H1 e s5 H5; pget H1 f s6 H6; pget H1 g s7 H7; pget H1 h s8 H8; pget H1 k s9 H9.
    unfold plift in H1. assert (E : d_correlate c g k d = Ok x) by congruence. now apply correlate_nop in E. }
  exact (G _ _ _ _ _ H).
Qed.
Lemma from_dist_all : forall (d : dist T) t x m q w b, bunch_from_dist d t x m q w = Ok b ->
  length b = Z.to_nat (dNOP d) /\ Forall (fun p => pCharge p = q /\ pMass p = w) b.
Proof.
  intros d t x m q w b H; unfold bunch_from_dist in H. split.
  - rewrite (DriverProofs.map_res_len _ _ _ H). apply TraceProofs2.zseq_length.
  - revert b H; generalize (zseq 0 (Z.to_nat (dNOP d))); intros l; induction l as [|i r IH]; intros b H; cbn [map_res] in H.
    + apply Ok_inj in H; subst; constructor.
    + bget H as p Hp; bget H as ps Hps; apply Ok_inj in H; subst b; constructor; [|now apply IH].
      bget Hp as a1 A1; bget Hp as a2 A2; bget Hp as a3 A3; bget Hp as a4 A4; bget Hp as a5 A5; bget Hp as a6 A6; bget Hp as a7 A7.
      apply Ok_inj in Hp; subst p; split; reflexivity.
Qed.

(* a <bunch> which is accepted, in any arithmetic *)
Lemma bunch_made : forall i n (b b' : pbeam (T:=T)) s s', p_bunch i n b s = (s', Ok b') ->
  let q := ndiv (num_attr (psEnv s) n "charge") nqe in
  let cmr := num_attr (psEnv s) n "cmr" in
  exists bu, bmB (pbBeam b') = bmB (pbBeam b) ++ [bu] /\ length bu = Z.to_nat (n_attr n) /\
    Forall (fun p => pCharge p = ndiv q (nZ (n_attr n)) /\ pMass p = ndiv (ndiv q cmr) (nZ (n_attr n))) bu.
Proof.
  intros i n b b' s s' H; unfold p_bunch in H.
  pget H gamma s1 H1; pget H q0 s2 H2; pget H cmr0 s3 H3.
  unfold p_double, p_text in H1, H2, H3.
  assert (E1 : s1 = s) by congruence; subst s1. assert (E2 : s2 = s) by congruence; subst s2. assert (E3 : s3 = s) by congruence; subst s3.
  assert (Q : q0 = num_attr (psEnv s) n "charge") by (unfold num_attr; congruence).
  assert (C : cmr0 = num_attr (psEnv s) n "cmr") by (unfold num_attr; congruence).
  clear H1 H2 H3. cbv zeta in H.
  pget H u0 s0 K0; pget H t0 s1 K1; pget H pn s2 K2; pget H u1 s3 K3; pget H pos s4 K4; pget H xr s5 K5; pget H yr s6 K6; pget H zr s7 K7;
  pget H zf s8 K8; pget H mn s9 K9; pget H u2 s10 K10; pget H dir s11 K11; pget H xp s12 K12; pget H yp s13 K13; pget H de s14 K14;
  pget H d0 s15 K15; pget H d1 s16 K16; pget H bu s17 K17; pget H lo s18 K18; pget H tr s19 K19.
  unfold plift in K15, K17.
  assert (D0 : dNOP d0 = n_attr n).
  { match type of K15 with (_, ?r) = _ => assert (X : r = Ok d0) by congruence end. now apply dist_nop in X. }
  apply correlations_nop in K16.
  match type of K17 with (_, ?r) = _ => assert (X : r = Ok bu) by congruence end.
  apply from_dist_all in X; destruct X as [L F].
  unfold pret in H. assert (B : b' = PB (beam_add bu (pbBeam b)) (pbLogs b ++ lo ++ tr) (pbProbe b)) by congruence.
  exists bu; subst b'; cbn [pbBeam beam_add bmB]. split; [reflexivity|]. split; [now rewrite L, K16, D0|].
  eapply Forall_impl; [|exact F]; intros p [A1 A2]. rewrite A1, A2, Q, C; auto.
Qed.
End Bunches.

(* the totals over the real numbers *)
Lemma total_const : forall (f : particle R -> R) c b, Forall (fun p => f p = c) b -> total f b = (INR (length b) * c)%R.
Proof.
  intros f c b H; induction H as [|p r E _ IH]; [cbn; lra|].
  change (total f (p :: r)) with (f p + total f r)%R. rewrite IH, E. cbn [length]. rewrite S_INR. lra.
Qed.

(* ---- a bunch is made ---- *)
Section Made.
Context {T : Type} {NT : Num T} {TT : Trans T} {CT : Calc T} {WT : World T}.
Local Open Scope Z_scope.

Lemma dist_made : forall i nop bg a b c d e f g, 0 <= nop -> 6 * nop <= int_max ->
  exists di : dist T, p_dist i nop bg a b c d e f g = Ok di /\ wf_dist di /\ dNOP di = nop /\ dDIM di = 6.
Proof.
  intros i nop bg a b c d e f g H0 H1.
  destruct (new_ok (T:=T) 6 nop (wUniform i) ltac:(lia) H0 H1) as (d0 & E0 & W0 & D0 & N0).
  assert (G : forall k rnd (x : dist T), 0 <= k < 6 -> wf_dist x -> dDIM x = 6 ->
    exists y, d_gaussian k rnd x = Ok y /\ wf_dist y /\ dDIM y = 6).
  { intros k rnd x K W D; destruct (gaussian_ok x k rnd W ltac:(lia)) as (y & E & W' & [S _] & _).
    exists y; repeat split; [exact E|apply W'|apply W'|apply W'|apply W'|congruence]. }
  assert (S : forall k fa (x : dist T), 0 <= k < 6 -> wf_dist x -> dDIM x = 6 ->
    exists y, d_scale k fa x = Ok y /\ wf_dist y /\ dDIM y = 6).
  { intros k fa x K W D; destruct (scale_ok x k fa W ltac:(lia)) as (y & E & W' & [S _] & _).
    exists y; repeat split; [exact E|apply W'|apply W'|apply W'|apply W'|congruence]. }
  destruct (G 0 (wGauss i 0 a) d0 ltac:(lia) W0 D0) as (d1 & E1 & W1 & D1).
  destruct (G 1 (wGauss i 1 b) d1 ltac:(lia) W1 D1) as (d2 & E2 & W2 & D2).
  assert (X : exists d3, (if negb (neqb d (nZ 0)) then d_scale 2 d d2
      else if negb (neqb c (nZ 0)) then d_gaussian 2 (wGauss i 2 c) d2 else d_scale 2 (nZ 0) d2) = Ok d3 /\ wf_dist d3 /\ dDIM d3 = 6).
  { destruct (negb _); [apply S; auto; lia|]. destruct (negb _); [apply G; auto; lia|apply S; auto; lia]. }
  destruct X as (d3 & E3 & W3 & D3).
  destruct (G 3 (wGauss i 3 (nmul bg e)) d3 ltac:(lia) W3 D3) as (d4 & E4 & W4 & D4).
  destruct (G 4 (wGauss i 4 (nmul bg f)) d4 ltac:(lia) W4 D4) as (d5 & E5 & W5 & D5).
  destruct (G 5 (wGauss i 5 (nmul bg g)) d5 ltac:(lia) W5 D5) as (d6 & E6 & W6 & D6).
  assert (P : p_dist i nop bg a b c d e f g = Ok d6).
  { unfold p_dist; rewrite E0; cbn [bind]; rewrite E1; cbn [bind]; rewrite E2; cbn [bind]; rewrite E3; cbn [bind];
    rewrite E4; cbn [bind]; rewrite E5; cbn [bind]; exact E6. }
  exists d6; repeat split; [exact P|apply W6|apply W6|apply W6|apply W6|now apply dist_nop in P|exact D6].
Qed.
Lemma from_dist_made : forall (d : dist T) t x m q w, wf_dist d -> exists b, bunch_from_dist d t x m q w = Ok b.
Proof.
  intros d t x m q w W; apply map_res_all; intros i Hi; apply zseq_in in Hi.
  assert (G : forall k, exists v, d_coordinate d i k = Ok v).
  { intros k; unfold d_coordinate; destruct (d_dim_ok d k && d_idx_ok d i) eqn:E; [|eauto].
    apply andb_prop in E; destruct E as [A B]; apply dim_ok_true in A; apply idx_ok_true in B.
    assert (I : in_dist d i k) by (split; assumption).
    destruct (coordinate_some d i k W I) as [v V]. exists v. apply d_get_ok; auto. }
  destruct (G 6) as [v6 E6], (G 0) as [v0 E0], (G 1) as [v1 E1], (G 2) as [v2 E2], (G 3) as [v3 E3], (G 4) as [v4 E4], (G 5) as [v5 E5].
  rewrite E6, E0, E1, E2, E3, E4, E5; cbn [bind]; eauto.
Qed.

(* a piece of the parser which always succeeds *)
Definition succeeds {A} (m : pm T A) : Prop := forall s, exists s' a, m s = (s', Ok a).
Lemma su_ret : forall A (a : A), succeeds (pret a). Proof. intros A a s; unfold pret; eauto. Qed.
Lemma su_text : forall t, succeeds (p_text t). Proof. intros t s; unfold p_text; eauto. Qed.
Lemma su_bind : forall A B (m : pm T A) (f : A -> pm T B), succeeds m -> (forall a, succeeds (f a)) -> succeeds (pbind m f).
Proof. intros A B m f H1 H2 s; unfold pbind; destruct (H1 s) as (s1 & a & ->); apply H2. Qed.
Lemma su_fold : forall S (f : S -> node -> pm T S) l a, (forall a n, succeeds (f a n)) -> succeeds (pfold f l a).
Proof. intros S f l; induction l as [|n r IH]; intros a H; cbn; [apply su_ret|apply su_bind; auto]. Qed.
Lemma su_calcs : forall n, succeeds (p_calcs n).
Proof. intros n; apply su_fold; intros _ m; destruct (is_calc m); [intros s; unfold p_calc; eauto|apply su_ret]. Qed.
Lemma su_opt : forall A B (o : option A) (d : B) f, (forall a, succeeds (f a)) -> succeeds (popt o d f).
Proof. intros A B [a|] d f H; cbn; [apply H|apply su_ret]. Qed.
Lemma su_vec : forall n, succeeds (p_vec n).
Proof. intros n; unfold p_vec; repeat (apply su_bind; [apply su_text|intros]); apply su_ret. Qed.
Lemma su_some : forall A B (a : A) (f : A -> pm T B), succeeds (f a) -> succeeds (pbind (pneed (Some a)) f).
Proof. intros A B a f H s; exact (H s). Qed.
Lemma su_log : forall n ib b, (forall l, child n "log" = Some l -> attr l "file" <> None) -> succeeds (p_log n ib b).
Proof.
  intros n ib b H; unfold p_log; destruct (child n "log") as [l|]; cbn [popt]; [|apply su_ret].
  destruct (attr l "file") as [fn|] eqn:E; [|destruct (H l eq_refl E)].
  apply su_some; apply su_bind; [|intros; apply su_ret].
  destruct b; [|apply su_ret]. apply su_opt; intros; apply su_bind; [apply su_text|intros; apply su_ret].
Qed.
Lemma bunch_accepted : forall i n (b : pbeam (T:=T)) pn mn,
  0 <= n_attr n -> 6 * n_attr n <= int_max ->
  child n "position" = Some pn -> child n "momentum" = Some mn -> child n "correlations" = None ->
  (forall l, child n "log" = Some l -> attr l "file" <> None) ->
  (forall l, child n "trajectories" = Some l -> attr l "file" <> None) ->
  succeeds (p_bunch i n b).
Proof.
  intros i n b pn mn H0 H1 Hp Hm Hc Hl Ht. unfold p_bunch. cbv zeta.
  do 3 (apply su_bind; [apply su_text|intros]).
  apply su_bind; [apply su_calcs|intros _].
  apply su_bind; [apply su_opt; intros; apply su_bind; [apply su_calcs|intros; apply su_text]|intros].
  rewrite Hp; apply su_some. apply su_bind; [apply su_calcs|intros _]. apply su_bind; [apply su_vec|intros].
  do 4 (apply su_bind; [apply su_opt; intros; apply su_text|intros]).
  rewrite Hm; apply su_some. apply su_bind; [apply su_calcs|intros _]. apply su_bind; [apply su_vec|intros].
  do 3 (apply su_bind; [apply su_opt; intros; apply su_text|intros]).
  change (a_int n "n" 1) with (n_attr n).
  match goal with |- succeeds (pbind (plift (p_dist ?i ?m ?bg ?a ?b ?c ?d ?e ?f ?g)) _) =>
    destruct (dist_made i m bg a b c d e f g H0 H1) as (di & E & W & _ & _); rewrite E end.
  intros s; unfold pbind at 1, plift at 1; revert s; change (fun s => ?f s) with f.
  match goal with |- forall s, exists s' a, ?g s = _ => change (succeeds g) end.
  unfold p_correlations; rewrite Hc; cbn [popt].
  intros s; unfold pbind at 1, pret at 1; revert s.
  match goal with |- forall s, exists s' a, ?g s = _ => change (succeeds g) end.
  match goal with |- succeeds (pbind (plift (bunch_from_dist ?d ?t ?x ?m ?q ?w)) _) =>
    destruct (from_dist_made d t x m q w W) as (bu & Eb); rewrite Eb end.
  intros s; unfold pbind at 1, plift at 1; revert s.
  match goal with |- forall s, exists s' a, ?g s = _ => change (succeeds g) end.
  apply su_bind; [now apply su_log|intros].
  apply su_bind; [|intros; apply su_ret].
  destruct (child n "trajectories") as [t|]; cbn [popt]; [|apply su_ret].
  destruct (attr t "file") as [fn|] eqn:E'; [|destruct (Ht t eq_refl E')].
  apply su_some, su_ret.
Qed.

(* the cases in which no bunch is made *)
Lemma dist_refused : forall i nop bg a b c d e f g, nop < 0 -> int_min <= 6 * nop ->
  p_dist i nop bg a b c d e f g = (Throw STDexc : res (dist T)).
Proof.
  intros i nop bg a b c d e f g H H1; unfold p_dist, dist_new, imul. pose proof dint as [Bm BM].
  rewrite to_int_in by lia; cbn [bind]. destruct (Z.ltb_spec (6 * nop) 0); [reflexivity|lia].
Qed.
Lemma dist_overflow : forall i nop bg a b c d e f g, int_max < 6 * nop ->
  p_dist i nop bg a b c d e f g = (UB : res (dist T)).
Proof.
  intros i nop bg a b c d e f g H; unfold p_dist, dist_new, imul, to_int, in_int.
  destruct (Z.leb_spec (6 * nop) int_max); [lia|]. now rewrite andb_false_r.
Qed.
End Made.
