(* Proofs about the observation by several nodes. *)
From Coq Require Import ZArith Reals List Lia Lra Bool.
From Verif Require Import Base BaseFacts Num VecModel VecFacts ParticleModel TraceModel RetardModel TraceProofs2 BunchModel DriverModel DriverProofs
  ObserverModel ObserverSpec ObserverSpec2 ObserverProofs ObserverProofs2 ObserverProofs3 ObserverProofs4.
Import ListNotations.
Local Open Scope Z_scope.

Lemma driver_gather {T} {NT : Num T} (srcs : list (source T)) obs :
  driver_observe srcs obs = bind (map_res (fun so => obs_integrate (fst so) (snd so)) (combine srcs obs)) gather.
Proof. reflexivity. Qed.
Lemma map_combine_repeat {A B C} (f : A -> B -> res C) (b : B) : forall l,
  map_res (fun ab => f (fst ab) (snd ab)) (combine l (repeat b (length l))) = map_res (fun a => f a b) l.
Proof. induction l as [|a l IH]; [reflexivity|]. cbn. rewrite IH. reflexivity. Qed.
Lemma map_res_map_l {A B C} (f : B -> res C) (g : A -> B) l : map_res f (map g l) = map_res (fun a => f (g a)) l.
Proof. induction l as [|a l IH]; [reflexivity|]. cbn. rewrite IH. reflexivity. Qed.
Lemma map_res_forall2 {A B} (f : A -> res B) : forall l l', map_res f l = Ok l' <-> Forall2 (fun a b => f a = Ok b) l l'.
Proof.
  induction l as [|a l IH]; intros l'; cbn [map_res].
  - split; [intros H; okinj H; constructor|]. intros H; inversion H; reflexivity.
  - split.
    + intros H. bget H as b Eb. bget H as bs Ebs. okinj H. constructor; [exact Eb|]. apply IH. exact Ebs.
    + intros H. inversion H; subst. rewrite H2. cbn [bind]. rewrite (proj2 (IH l'0) H4). reflexivity.
Qed.

(* all fields zero *)
Definition blank_obs (o : observer R) : Prop := forall xy tr, in_cells o xy -> cell_of o xy = Ok tr -> is_blank tr.

Definition sum_traces (z : ftrace R) (rs : list (ftrace R)) : ftrace R :=
  match rs with [] => z | r :: rs => fold_left tr_plus rs r end.

Lemma map_res_ext2 {A B} (f g : A -> res B) l : (forall a, f a = g a) -> map_res f l = map_res g l.
Proof. intros H. induction l as [|a l IH]; [reflexivity|]. cbn. rewrite H, IH. reflexivity. Qed.
Lemma chunks_cell whole bm0 bms pos z : beam_ps whole = concat (map beam_ps (bm0 :: bms)) -> is_blank z ->
  beam_integrate whole pos z = bind (map_res (fun bm => beam_integrate bm pos z) (bm0 :: bms)) (fun rs => Ok (sum_traces z rs)).
Proof.
  intros H B. rewrite beam_particles. fold (beam_ps whole). rewrite H. cbn [map]. rewrite (chunks_trace pos z _ _ B).
  change (beam_ps bm0 :: map beam_ps bms) with (map beam_ps (bm0 :: bms)). rewrite map_res_map_l.
  rewrite (map_res_ext2 (fun a => particles_trace (beam_ps a) pos z) (fun bm => beam_integrate bm pos z))
    by (intros a; symmetry; apply beam_particles).
  destruct (map_res _ _) as [[|r rs]| | |]; reflexivity.
Qed.
Lemma sum_single t (fs : list (emf R)) : forall f,
  fold_left tr_plus (map (fun f => FT t 0%R [f]) fs) (FT t 0%R [f]) = FT t 0%R [fold_left eadd fs f].
Proof. induction fs as [|g fs IH]; intros f; [reflexivity|]. cbn [map fold_left]. unfold tr_plus at 2. cbn [tr_t0 tr_dt tr_f zip_with]. apply IH. Qed.
Lemma chunks_op whole bm0 bms o xy z : beam_ps whole = concat (map beam_ps (bm0 :: bms)) -> is_blank z ->
  cell_op (SBeam whole) o xy z =
  bind (map_res (fun bm => cell_op (SBeam bm) o xy z) (bm0 :: bms)) (fun rs => Ok (sum_traces z rs)).
Proof.
  intros H B. destruct o as [s|s|s|s]; cbn [cell_op].
  - unfold screen_cell. destruct (screen_pos s _ _) as [pos| | |]; cbn [bind map_res]; try reflexivity.
    exact (chunks_cell whole bm0 bms pos z H B).
  - cbn [snap_cell]. generalize (snap_pos s (fst xy) (snd xy)). intros pos. rewrite beam_field. fold (beam_ps whole). rewrite H.
    cbn [map]. rewrite (chunks_field (snt s) pos). change (beam_ps bm0 :: map beam_ps bms) with (map beam_ps (bm0 :: bms)).
    rewrite map_res_map_l.
    rewrite (map_res_ext2 (fun a => particles_field (beam_ps a) (snt s) pos) (fun bm => beam_RetardedField bm (snt s) pos))
      by (intros a; symmetry; apply beam_field).
    assert (Q : forall l, map_res (fun bm => bind (beam_RetardedField bm (snt s) pos) (fun f => Ok (FT (snt s) 0%R [f]))) l =
       bind (map_res (fun bm => beam_RetardedField bm (snt s) pos) l) (fun fs => Ok (map (fun f => FT (snt s) 0%R [f]) fs))).
    { induction l as [|b l IH]; [reflexivity|]. cbn [map_res]. destruct (beam_RetardedField b _ _); cbn [bind]; try reflexivity.
      rewrite IH. destruct (map_res (fun bm => beam_RetardedField bm (snt s) pos) l); reflexivity. }
    change (@nZ R NumR 0) with 0%R. rewrite Q. destruct (map_res _ _) as [[|f fs]| | |] eqn:E; cbn [bind]; try reflexivity.
    + apply map_res_len in E. discriminate.
    + cbn [map sum_traces]. rewrite sum_single. reflexivity.
  - exact (chunks_cell whole bm0 bms (poX s) z H B).
  - unfold mesh_cell. destruct (zget (msX s) _) as [pos| | |]; cbn [bind map_res]; try reflexivity.
    exact (chunks_cell whole bm0 bms pos z H B).
Qed.

Lemma tr_plus_get a b c f g : tr_like a b -> tr_get a c = Ok f -> tr_get b c = Ok g -> tr_get (tr_plus a b) c = Ok (eadd f g).
Proof.
  intros L Ha Hb. unfold tr_get in *. assert (Q : tr_in (tr_plus a b) c = tr_in a c).
  { unfold tr_in. rewrite (tr_like_N _ _ (tr_plus_like _ _ L)). reflexivity. }
  rewrite Q. destruct (tr_in a c) eqn:E; [|discriminate]. destruct (tr_in b c); [|discriminate].
  apply zget_inv in Ha, Hb. destruct Ha as [R1 Ha], Hb as [_ Hb]. unfold zget. destruct (Z.ltb_spec c 0); [lia|].
  cbn [tr_plus tr_f]. rewrite (zip_nth _ _ _ _ _ _ Ha Hb). reflexivity.
Qed.
Lemma sum_get : forall rs gs r f c, tr_get r c = Ok f -> Forall (tr_like r) rs -> Forall2 (fun r g => tr_get r c = Ok g) rs gs ->
  tr_get (fold_left tr_plus rs r) c = Ok (sum_from f gs).
Proof.
  induction rs as [|r1 rs IH]; intros gs r f c H L HF; inversion HF; subst; [exact H|]. inversion L; subst.
  cbn [fold_left sum_from]. apply IH.
  - apply tr_plus_get; assumption.
  - eapply Forall_impl; [|eassumption]. intros a Ha. eapply tr_like_trans; [|exact Ha]. apply tr_like_sym, tr_plus_like. assumption.
  - assumption.
Qed.

Lemma nodes_cells o srcs os : shaped o -> Forall2 (fun src o' => obs_integrate src o = Ok o') srcs os ->
  Forall (like o) os /\ forall xy tr, in_cells o xy -> cell_of o xy = Ok tr ->
    exists rs, map_res (fun src => cell_op src o xy tr) srcs = Ok rs /\ Forall2 (fun o' r => cell_of o' xy = Ok r) os rs /\ Forall (tr_like tr) rs.
Proof.
  intros Sh H. induction H as [|src o' srcs os E H [IH1 IH2]].
  - split; [constructor|]. intros xy tr _ _. exists []. repeat split; constructor.
  - destruct (integrate_ok _ _ _ Sh E) as [K C]. split; [constructor; assumption|].
    intros xy tr I Et. destruct (IH2 xy tr I Et) as (rs & A1 & A2 & A3). destruct (C xy I) as (tr' & r & C1 & C2 & C3).
    assert (tr' = tr) by congruence. subst tr'. exists (r :: rs). cbn [map_res]. rewrite C2. cbn [bind]. rewrite A1.
    split; [reflexivity|]. split; constructor; auto. eapply cell_op_keeps; eauto.
Qed.
Lemma whole_nodes o whole bm0 bms : shaped o -> blank_obs o -> beam_ps whole = concat (map beam_ps (bm0 :: bms)) ->
  (exists os, map_res (fun bm => obs_integrate (SBeam bm) o) (bm0 :: bms) = Ok os) <-> (exists o', obs_integrate (SBeam whole) o = Ok o').
Proof.
  intros Sh B H. split.
  - intros [os E]. apply map_res_forall2 in E.
    assert (E' : Forall2 (fun src o' => obs_integrate src o = Ok o') (map SBeam (bm0 :: bms)) os).
    { clear -E. induction E; constructor; auto. }
    destruct (nodes_cells o _ os Sh E') as [_ C]. apply integrate_total; [exact Sh|]. intros xy I.
    destruct (cell_ok o xy Sh I) as (tr & Et & _). destruct (C xy tr I Et) as (rs & A1 & _).
    rewrite map_res_map_l in A1. exists tr. rewrite (chunks_op whole bm0 bms o xy tr H (B _ _ I Et)). rewrite A1. cbn [bind]. eauto.
  - intros [o' E]. destruct (integrate_ok _ _ _ Sh E) as [_ C].
    apply map_res_all. intros bm Ib. apply integrate_total; [exact Sh|]. intros xy I.
    destruct (C xy I) as (tr & r & C1 & C2 & _). exists tr.
    rewrite (chunks_op whole bm0 bms o xy tr H (B _ _ I C1)) in C2. bget C2 as rs Er.
    apply map_res_forall2 in Er. clear -Er Ib C1. induction Er as [|b r' l l' E1 E2 IH]; [destruct Ib|].
    destruct Ib as [<-|Ib]; [eauto|auto].
Qed.
Lemma whole_gather o whole bm0 bms os o' : shaped o -> small o -> 6 * fields o <= int_max -> blank_obs o ->
  beam_ps whole = concat (map beam_ps (bm0 :: bms)) ->
  map_res (fun bm => obs_integrate (SBeam bm) o) (bm0 :: bms) = Ok os -> obs_integrate (SBeam whole) o = Ok o' ->
  gather os = Ok o'.
Proof.
  intros Sh Sm Bd B H E W. apply map_res_forall2 in E.
  assert (E' : Forall2 (fun src o' => obs_integrate src o = Ok o') (map SBeam (bm0 :: bms)) os).
  { clear -E. induction E; constructor; auto. }
  destruct (nodes_cells o _ os Sh E') as [L C]. destruct os as [|root os]; [inversion E|]. inversion L as [|x y L0 L1]; subst.
  destruct (gather_ok root os) as (o2 & G & Sh2 & K2 & GET).
  { eapply like_shaped; eauto. } { eapply like_small; eauto. } { rewrite (like_fields _ _ L0). exact Bd. }
  { eapply Forall_impl; [|exact L1]. intros a Ha. eapply like_trans; [apply like_sym; exact L0|exact Ha]. }
  rewrite G. f_equal. destruct (integrate_ok _ _ _ Sh W) as [K CW].
  assert (K2' : like o2 o') by (eapply like_trans; [apply like_sym; exact K2|]; eapply like_trans; [apply like_sym; exact L0|exact K]).
  apply observer_ext_get; [exact Sh2|exact K2'|]. intros [[x y] c] I2.
  assert (I : inside o (x, y, c)).
  { eapply like_inside; [|exact I2]. eapply like_trans; [apply like_sym; exact K2|apply like_sym; exact L0]. }
  destruct (GET (x, y, c)) as (f & gs & G1 & G2 & G3); [eapply like_inside; eauto|]. rewrite G3. symmetry.
  assert (IC := inside_cell _ _ _ _ I).
  destruct (CW (x, y) IC) as (tr & r & C1 & C2 & C3).
  rewrite (get_cell o') by (eapply like_inside; [exact K|exact I]). rewrite C3. cbn [bind].
  destruct (C (x, y) tr IC C1) as (rs & A1 & A2 & A3). rewrite map_res_map_l in A1.
  rewrite (chunks_op whole bm0 bms o (x, y) tr H (B _ _ IC C1)), A1 in C2. cbn [bind] in C2. okinj C2.
  inversion A2 as [|x1 r0 x2 rs' A4 A5]; subst. cbn [sum_traces]. inversion A3 as [|x1 x2 A6 A7]; subst.
  apply sum_get.
  - rewrite (get_cell root) in G1 by (eapply like_inside; eauto). rewrite A4 in G1. exact G1.
  - eapply Forall_impl; [|exact A7]. intros a Ha. eapply tr_like_trans; [apply tr_like_sym; exact A6|exact Ha].
  - clear -A5 G2 L1 I. revert gs G2 L1. induction A5 as [|o1 r1 l l' E A5 IH]; intros gs G2 L1; inversion G2; subst; constructor.
    + inversion L1; subst. rewrite (get_cell o1) in H1 by (eapply like_inside; eauto). rewrite E in H1. exact H1.
    + inversion L1; subst. apply IH; assumption.
Qed.
Lemma observe_whole o whole bm0 bms o' : shaped o -> small o -> 6 * fields o <= int_max -> blank_obs o ->
  beam_ps whole = concat (map beam_ps (bm0 :: bms)) ->
  driver_observe (map SBeam (bm0 :: bms)) (repeat o (length (bm0 :: bms))) = Ok o' <-> obs_integrate (SBeam whole) o = Ok o'.
Proof.
  intros Sh Sm Bd B H. rewrite driver_gather.
  replace (length (bm0 :: bms)) with (length (map (@SBeam R) (bm0 :: bms))) by apply map_length.
  rewrite (map_combine_repeat (@obs_integrate R NumR)). rewrite map_res_map_l. split.
  - intros E. bget E as os Eo. destruct (proj1 (whole_nodes o whole bm0 bms Sh B H) (ex_intro _ os Eo)) as [o2 E2].
    rewrite (whole_gather o whole bm0 bms os o2 Sh Sm Bd B H Eo E2) in E. congruence.
  - intros E. destruct (proj2 (whole_nodes o whole bm0 bms Sh B H) (ex_intro _ o' E)) as [os Eo]. rewrite Eo. cbn [bind].
    apply (whole_gather o whole bm0 bms os o' Sh Sm Bd B H Eo E).
Qed.

(* ---- lattice fields: every node computes all of the field ---- *)
Lemma sum_same n (f : emf R) : forall g, sum_from g (repeat f n) = eadd g (emul f (INR n)).
Proof.
  unfold sum_from. induction n as [|n IH]; intros g.
  - destruct g as [[] []]. unfold eadd, emul, vadd, vmul. cbn. f_equal; f_equal; ring.
  - cbn [repeat fold_left]. rewrite IH, S_INR. destruct g as [[] []], f as [[] []]. unfold eadd, emul, vadd, vmul. cbn. f_equal; f_equal; ring.
Qed.
Lemma observe_lattice (F : field_fn R) o o1 P : shaped o -> small o -> 6 * fields o <= int_max -> (0 < P)%nat ->
  obs_integrate (SLattice F) o = Ok o1 ->
  exists o', driver_observe (repeat (SLattice F) P) (repeat o P) = Ok o' /\ like o1 o' /\
    forall k, inside o k -> exists f, obs_get o1 k = Ok f /\ obs_get o' k = Ok (emul f (INR P)).
Proof.
  intros Sh Sm Bd HP E. destruct (integrate_ok _ _ _ Sh E) as [K _]. rewrite driver_gather.
  replace (map_res _ (combine (repeat (SLattice F) P) (repeat o P))) with (Ok (repeat o1 P)).
  2: { clear HP. symmetry. induction P as [|P IH]; [reflexivity|]. cbn [repeat combine map_res fst snd]. rewrite E. cbn [bind]. rewrite IH. reflexivity. }
  destruct P as [|P]; [lia|]. cbn [bind repeat].
  destruct (gather_ok o1 (repeat o1 P)) as (o' & G & _ & K2 & GET).
  { eapply like_shaped; eauto. } { eapply like_small; eauto. } { rewrite (like_fields _ _ K). exact Bd. }
  { apply Forall_forall. intros a Ha. apply repeat_spec in Ha. subst. apply like_refl. }
  exists o'. split; [exact G|]. split; [exact K2|]. intros k I. destruct (GET k (like_inside _ _ _ K I)) as (f & gs & G1 & G2 & G3).
  exists f. split; [exact G1|]. assert (gs = repeat f P).
  { clear -G1 G2. revert gs G2. induction P as [|P IH]; intros gs H; inversion H; subst; [reflexivity|]. cbn. f_equal; [congruence|auto]. }
  subst gs. rewrite G3, sum_same, S_INR. f_equal. destruct f as [[] []]. unfold eadd, emul, vadd, vmul. cbn. f_equal; f_equal; ring.
Qed.
