(* C86: the radiation recorded on a screen, used as a source. *)
From Coq Require Import ZArith String Reals List Lia Lra Bool.
From Verif Require Import Base BaseFacts Num VecModel VecFacts TraceModel TraceSpec ElementModel ObserverModel ObserverSpec ObserverSpec2 PropagateModel PropagateSpec PropagateProofs5
  SddsModel OutputModel OutputSpec OutputProofs4 ReplaySpec ReplayProofs PropOutput.
Import ListNotations.
Local Open Scope list_scope.
Local Open Scope R_scope.

(* Real arithmetic: the element made of the file of a screen, placed at the origin and the start
   time of this screen, has at all times and at all places off the screen the field of the
   Kirchhoff integral over the cells where and when they have been recorded.  Cells contribute
   while their retarded time is within the recorded time. *)
Theorem C86_field : forall (TT : Trans R) (s : screen R) (f : h5file R) (fs : string -> option (h5file R)) fn,
  shaped (OScreen s) -> small (OScreen s) -> positions_fit (scNx s) (scNy s) -> (2 <= scN s <= int_max)%Z -> 0 < scdt s ->
  scdX s <> vzero -> scdY s <> vzero -> vdot (scdX s) (scdY s) = 0 -> scNormal s = vnormalize (vmul (vcross (scdX s) (scdY s)) (-1)) ->
  screen_file s = Ok f -> fs fn = Some f ->
  exists e cs, screen_source fs fn (scO s) (sct0 s) = Ok e /\ Forall2 (recorded_cell s) (pairs (scNx s) (scNy s)) cs /\
    forall t X, (forall c, In c cs -> X <> srcX c) -> element_field e t X = Ok (kirchhoff_sum (filter (lit X t) cs) X t).
Proof. exact replay. Qed.
Print Assumptions C86_field.

(* In particular there is no field before the first light arrives and after the last one has passed. *)
Theorem C86_dark : forall (TT : Trans R) (s : screen R) (f : h5file R) (fs : string -> option (h5file R)) fn e t X,
  shaped (OScreen s) -> small (OScreen s) -> positions_fit (scNx s) (scNy s) -> (2 <= scN s <= int_max)%Z -> 0 < scdt s ->
  scdX s <> vzero -> scdY s <> vzero -> vdot (scdX s) (scdY s) = 0 -> scNormal s = vnormalize (vmul (vcross (scdX s) (scdY s)) (-1)) ->
  screen_file s = Ok f -> fs fn = Some f -> screen_source fs fn (scO s) (sct0 s) = Ok e ->
  (forall ix iy t1, (0 <= ix < scNx s)%Z -> (0 <= iy < scNy s)%Z -> screen_t0 s ix iy = Ok t1 ->
     let p := centre_pos (scO s) (scdX s) (scdY s) (scNx s) (scNy s) ix iy in
     let arrival := t1 + vnorm (vsub X p) / nc in
     X <> p /\ (t < arrival \/ arrival + IZR (scN s - 1) * scdt s < t)) ->
  element_field e t X = Ok ezero.
Proof.
  intros TT s f fs fn e t X H1 H2 H3 H4 H5 H6 H7 H8 H9 H10 H11 HE HD.
  destruct (replay TT s f fs fn H1 H2 H3 H4 H5 H6 H7 H8 H9 H10 H11) as (e' & cs & E & F & G). rewrite HE in E. apply Ok_inj in E. subst e'.
  assert (A : forall c, In c cs -> X <> srcX c /\ lit X t c = false).
  { assert (I : Forall (fun k : Z * Z => (0 <= fst k < scNx s)%Z /\ (0 <= snd k < scNy s)%Z) (pairs (scNx s) (scNy s))).
    { apply Forall_forall. intros [ix iy] I. apply ObserverProofs.pairs_in in I. exact I. }
    revert I. clear -F HD H4. induction F as [|p c l l' Q F IH]; intros I x; [intros []|]. inversion I as [|a b I1 I2]; subst.
    intros [<-|J]; [|apply IH; assumption]. destruct Q as (Q1 & _ & _ & Q2 & Q3 & Q4 & _).
    destruct (HD _ _ _ (proj1 I1) (proj2 I1) Q2) as [D1 D2]. rewrite <- Q1 in D1, D2. split; [exact D1|].
    unfold lit. cbv zeta. set (r := vnorm (vsub X (srcX c)) / nc) in *. unfold sample_time. rewrite Q3, Q4, Z.max_r by lia.
    destruct (Rle_dec (tr_t0 (srcA c)) (t - r)); [|reflexivity]. destruct (Rle_dec (t - r) _); [|reflexivity]. exfalso. lra. }
  rewrite G by (intros c I; apply (A c I)).
  assert (B : filter (lit X t) cs = []).
  { clear -A. induction cs as [|c cs IH]; [reflexivity|]. cbn [filter]. rewrite (proj2 (A c (or_introl eq_refl))). apply IH. intros x I. apply A. right. exact I. }
  rewrite B. reflexivity.
Qed.
Print Assumptions C86_dark.

Example C86_ex : exists (s : screen R) f, shaped (OScreen s) /\ small (OScreen s) /\ positions_fit (scNx s) (scNy s) /\ (2 <= scN s <= int_max)%Z /\ 0 < scdt s /\
  scdX s <> vzero /\ scdY s <> vzero /\ vdot (scdX s) (scdY s) = 0 /\ scNormal s = vnormalize (vmul (vcross (scdX s) (scdY s)) (-1)) /\ screen_file s = Ok f /\
  exists (fn : string) fs, fs fn = Some f.
Proof.
  exists (SC vzero (V 1 0 0) (V 0 1 0) (V 0 0 (-1)) 1 1 2 0 1 0 0 [[FT 0 1 [EB (V 1 0 0) (V 0 1 0); ezero]]]).
  set (s := SC _ _ _ _ _ _ _ _ _ _ _ _).
  assert (Sh : shaped (OScreen s)).
  { cbn [shaped s scNx scNy scN scTr]. split; [lia|]. split; [lia|]. split; [lia|]. split; [reflexivity|]. constructor; [|constructor].
    split; [reflexivity|]. constructor; [reflexivity|constructor]. }
  assert (Sm : small (OScreen s)) by (cbn [small fields extent s scNx scNy scN]; lia).
  assert (Pf : positions_fit (scNx s) (scNy s)) by (cbn [s scNx scNy]; unfold positions_fit, int_max; lia).
  assert (N2 : (2 <= scN s <= int_max)%Z) by (cbn [s scN]; unfold int_max; lia).
  destruct (C71_file R NumR s Sh Sm Pf (proj2 N2)) as (p & g & e & F & _). eexists.
  split; [exact Sh|]. split; [exact Sm|]. split; [exact Pf|]. split; [exact N2|]. split; [cbn [s scdt]; lra|].
  split; [intros E; apply (f_equal vx) in E; cbn in E; lra|]. split; [intros E; apply (f_equal vy) in E; cbn in E; lra|].
  split; [cbn [s scdX scdY]; vunfold; unnum; ring|]. split.
  - cbn [s scdX scdY scNormal]. replace (vmul (vcross (V 1 0 0) (V 0 1 0)) (-1)) with (V 0 0 (-1)) by (vunfold; unnum; vsplit; ring). rewrite unit_normalize by ring. reflexivity.
  - split; [exact F|]. exists EmptyString, (fun _ => Some [("ObservationPosition"%string, p); ("Screen"%string, g); ("ElMagField"%string, e)]). reflexivity.
Qed.
