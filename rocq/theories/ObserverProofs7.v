(* Proofs about the source screen, the neighbourhood of mesh cells, the mesh energy and the
   parallel integration. *)
From Coq Require Import ZArith Reals List Lia Lra Bool Permutation.
From Verif Require Import Base BaseFacts Num VecModel VecFacts ParticleModel TraceModel RetardModel TraceProofs2 BunchModel DistProofs DriverModel DriverProofs
  ObserverModel ObserverSpec ObserverSpec2 ObserverProofs ObserverProofs2 ObserverProofs3 ObserverProofs4 ObserverProofs5 ObserverProofs6.
Import ListNotations.

(* ---- source screen ---- *)
Section Frame.
Local Open Scope R_scope.
Lemma sub_perp (n a : vec R) : vdot n n = 1 -> vdot n (vsub a (vmul n (vdot a n))) = 0.
Proof. intros H. rewrite vdot_sub_r, vdot_mul_r, H, (vdot_comm n a). ring. Qed.
Lemma dot_mul_unit (a b : vec R) k : vdot (vmul a k) b = k * vdot a b.
Proof. apply vdot_mul_l. Qed.
Lemma frame_dot (ex v : vec R) d : vdot ex ex = 1 ->
  vdot ex (vsub v (vmul (vmul ex d) (vdot v (vmul ex d)))) = vdot ex v * (1 - d * d).
Proof. intros H. rewrite vdot_sub_r, !vdot_mul_r, H, (vdot_comm v ex). ring. Qed.

Lemma source_frame_ok (n dX dY : vec R) : n <> vzero ->
  let n' := vnormalize n in
  let pX := vsub dX (vmul n' (vdot dX n')) in let pY := vsub dY (vmul n' (vdot dY n')) in
  pX <> vzero -> vcross pX pY <> vzero ->
  exists ex ey, source_frame n dX dY = (n', ex, ey, vmul ex (vnorm dX), vmul ey (vnorm dY)) /\
    vdot n' n' = 1 /\ vdot ex ex = 1 /\ vdot ey ey = 1 /\ vdot n' ex = 0 /\ vdot n' ey = 0 /\
    (vdot ex ey = 0 <-> vdot pX pY = 0 \/ vnorm dX = 1).
Proof.
  intros Hn n' pX pY HX HXY. assert (Un : vdot n' n' = 1) by (apply unit_of; exact Hn).
  set (ex := vnormalize pX). set (w := vsub pY (vmul (vmul ex (vnorm dX)) (vdot pY (vmul ex (vnorm dX))))).
  exists ex, (vnormalize w). split; [reflexivity|].
  assert (Ue : vdot ex ex = 1) by (apply unit_of; exact HX).
  assert (Pn : vdot n' pX = 0) by (apply sub_perp; exact Un).
  assert (Pm : vdot n' pY = 0) by (apply sub_perp; exact Un).
  assert (Pe : vdot n' ex = 0) by (apply normalize_perp_r; exact Pn).
  pose proof (vnorm_pos _ HX) as PX.
  assert (Hex : vmul ex (vnorm pX) = pX).
  { unfold ex. rewrite vnormalize_div. revert PX. generalize (vnorm pX). intros r Hr. destruct pX as [x y z]. vunfold. unnum. vsplit; field; lra. }
  assert (Cw : vcross pX w = vcross pX pY).
  { unfold w. rewrite <- Hex. clear. generalize (vdot pY (vmul ex (vnorm dX))) (vnorm dX) (vnorm pX). intros. vdestr. vunfold. unnum. vsplit; ring. }
  assert (Hw : w <> vzero).
  { intros E. apply HXY. rewrite <- Cw, E. clear. vdestr. vunfold. unnum. vsplit; ring. }
  pose proof (vnorm_pos _ Hw) as PW.
  assert (Dw : vdot n' w = 0).
  { unfold w. rewrite vdot_sub_r, !vdot_mul_r, Pe, Pm. ring. }
  assert (Xw : vdot ex w = vdot ex pY * (1 - vnorm dX * vnorm dX)) by (apply frame_dot; exact Ue).
  assert (XY : vdot pX pY = vnorm pX * vdot ex pY) by (rewrite <- Hex at 1; apply vdot_mul_l).
  split; [exact Un|]. split; [exact Ue|]. split; [apply unit_of; exact Hw|]. split; [exact Pe|].
  split; [apply normalize_perp_r; exact Dw|]. pose proof (vnorm_nonneg dX) as ND.
  rewrite vnormalize_div, vdot_div_r, Xw, XY. split.
  - intros E. assert (E2 : vdot ex pY * (1 - vnorm dX * vnorm dX) = 0).
    { apply Rmult_integral in E. destruct E as [E|E]; [exact E|]. exfalso. revert E. apply Rinv_neq_0_compat. lra. }
    apply Rmult_integral in E2. destruct E2 as [E2|E2]; [left; rewrite E2; ring|right].
    assert ((1 - vnorm dX) * (1 + vnorm dX) = 0) by lra. apply Rmult_integral in H. destruct H; lra.
  - intros [E|E].
    + apply Rmult_integral in E. destruct E as [E|E]; [lra|]. rewrite E. unfold Rdiv. ring.
    + rewrite E. unfold Rdiv. ring.
Qed.
End Frame.

(* ---- neighbourhood ---- *)
Local Open Scope Z_scope.
Lemma neigh_fold {K} (f : Z -> res K) (g : K -> bool) : forall l out0 out,
  fold_res (fun out i => bind (f i) (fun b => Ok (if g b then out ++ [i] else out))) l out0 = Ok out ->
  exists ns, out = out0 ++ ns /\ (forall j, In j ns <-> In j l /\ exists b, f j = Ok b /\ g b = true) /\ (NoDup l -> NoDup ns).
Proof.
  induction l as [|i l IH]; intros out0 out H; cbn [fold_res] in H.
  - okinj H. exists []. rewrite app_nil_r. split; [reflexivity|]. split; [cbn; tauto|auto].
  - bget H as o1 E1. bget E1 as b Eb. okinj E1. destruct (IH _ _ H) as (ns & -> & A & B). destruct (g b) eqn:G.
    + exists (i :: ns). rewrite <- app_assoc. split; [reflexivity|]. split.
      * intros j. cbn [In]. rewrite A. split.
        -- intros [<-|[C D]]; [split; eauto|tauto].
        -- intros [[<-|C] D]; [tauto|tauto].
      * intros ND. inversion ND as [|x y H3 H4]; subst. constructor; [|auto]. rewrite A. tauto.
    + exists ns. split; [reflexivity|]. split.
      * intros j. rewrite A. cbn [In]. split; [tauto|]. intros [[<-|C] (b' & D1 & D2)]; [|eauto]. congruence.
      * intros ND. inversion ND; subst; auto.
Qed.
Lemma tri_common_spec a b : tri_common a b = true <-> exists p, corner a p /\ corner b p.
Proof.
  destruct a as [[i1 i2] i3], b as [[t1 t2] t3]. unfold tri_common, corner. rewrite !orb_true_iff, !Z.eqb_eq. split.
  - intros H. repeat (destruct H as [H|H]); (eexists; split; [|left; reflexivity]; rewrite H; tauto) ||
      (eexists; split; [|right; left; reflexivity]; rewrite H; tauto) || (eexists; split; [|right; right; reflexivity]; rewrite H; tauto).
  - intros (p & H1 & H2). destruct H1 as [->|[->| ->]], H2 as [E|[E|E]]; rewrite <- E; tauto.
Qed.
Lemma neighbours_ok {T} (s : mesh T) i ns : mesh_neighbours s i = Ok ns ->
  NoDup ns /\ forall j, In j ns <-> 0 <= j < mesh_Np s /\ exists a b p, zget (msTri s) i = Ok a /\ zget (msTri s) j = Ok b /\ corner a p /\ corner b p.
Proof.
  unfold mesh_neighbours. intros H. bget H as a Ea.
  destruct (neigh_fold (zget (msTri s)) (tri_common a) _ _ _ H) as (ns' & E & A & B). cbn [app] in E. subst ns'.
  split; [apply B, zseq_nodup|]. intros j. rewrite A, zseq_In. unfold mesh_Np. split.
  - intros [C (b & D1 & D2)]. apply tri_common_spec in D2. destruct D2 as (p & P1 & P2). split; [lia|]. exists a, b, p. auto.
  - intros [C (a' & b & p & D1 & D2 & D3 & D4)]. assert (a' = a) by congruence. subst a'. split; [lia|].
    exists b. split; [exact D2|]. apply tri_common_spec. eauto.
Qed.
Lemma neighbours_total {T} (s : mesh T) i : length (msX s) = length (msTri s) -> 0 <= i < mesh_Np s -> exists ns, mesh_neighbours s i = Ok ns.
Proof.
  intros H Hi. unfold mesh_neighbours, mesh_Np in *. destruct (zget_ok (msTri s) i) as (a & -> & _); [lia|]. cbn [bind].
  assert (Q : forall l out, Forall (fun j => 0 <= j < Z.of_nat (length (msTri s))) l ->
     exists ns, fold_res (fun out j => bind (zget (msTri s) j) (fun b => Ok (if tri_common a b then out ++ [j] else out))) l out = Ok ns).
  { induction l as [|j l IH]; intros out HF; [cbn; eauto|]. inversion HF; subst. cbn [fold_res].
    destruct (zget_ok (msTri s) j) as (b & -> & _); [lia|]. cbn [bind]. apply IH. assumption. }
  apply Q. apply Forall_forall. intros j Ij. apply zseq_In in Ij. lia.
Qed.

(* ---- energy ---- *)
Local Open Scope R_scope.
Lemma energy_from (A : list (ftrace R)) (g : list cellgeo) : forall (l : list (ftrace R * cellgeo)) k a0,
  (forall i tc, nth_error l i = Some tc -> zget A (k + Z.of_nat i) = Ok (fst tc) /\ zget g (k + Z.of_nat i) = Ok (snd tc)) ->
  fold_res (fun total i => bind (zget A i) (fun tr => bind (zget g i) (fun c =>
    Ok (total - cgArea c * vdot (tr_poynting tr) (cgNormal c))))) (zseq k (length l)) a0 = Ok (a0 + rsum (map outflow l)).
Proof.
  induction l as [|tc l IH]; intros k a0 H.
  - cbn. f_equal. ring.
  - cbn [length zseq fold_res]. destruct (H 0%nat tc eq_refl) as [H1 H2]. replace (k + Z.of_nat 0)%Z with k in * by lia.
    rewrite H1, H2. cbn [bind]. rewrite (IH (k + 1)%Z).
    + f_equal. cbn [map rsum fold_right]. unfold outflow at 2. unfold rsum. ring.
    + intros i tc' E. specialize (H (S i) tc' E). replace (k + 1 + Z.of_nat i)%Z with (k + Z.of_nat (S i))%Z by lia. exact H.
Qed.
Lemma nth_combine {A B} : forall (a : list A) (b : list B) i x y, nth_error (combine a b) i = Some (x, y) -> nth_error a i = Some x /\ nth_error b i = Some y.
Proof. induction a as [|u a IH]; intros [|v b] [|i] x y H; try discriminate; cbn in *; [injection H as -> ->; auto|auto]. Qed.
Lemma mesh_energy_sum (s : mesh R) g : length (msA s) = length (msX s) -> length g = length (msX s) ->
  mesh_energy s g = Ok (rsum (map outflow (combine (msA s) g))).
Proof.
  intros H1 H2. unfold mesh_energy. replace (length (msX s)) with (length (combine (msA s) g)) by (rewrite combine_length; lia).
  pose proof (energy_from (msA s) g (combine (msA s) g) 0 0) as E. rewrite Rplus_0_l in E. apply E.
  intros i [tr c] En. apply nth_combine in En. destruct En as [E1 E2]. cbn [Z.add fst snd]. split; apply zget_nth; assumption.
Qed.
Lemma rsum_app a b : rsum (a ++ b) = rsum a + rsum b.
Proof. unfold rsum. induction a as [|x a IH]; cbn; [ring|]. rewrite IH. ring. Qed.
Lemma combine_app {A B} : forall (a c : list A) (b d : list B), length a = length b -> combine (a ++ c) (b ++ d) = combine a b ++ combine c d.
Proof. induction a as [|x a IH]; intros c [|y b] d H; try discriminate; [reflexivity|]. cbn. f_equal. apply IH. cbn in H. lia. Qed.

(* ---- parallel integration ---- *)
Local Open Scope Z_scope.
Lemma filter_concat_nil {Ev} (p : Ev -> bool) ls : Forall (fun l => l = []) ls -> filter p (concat ls) = [].
Proof. intros H. induction H as [|x l -> H IH]; [reflexivity|]. exact IH. Qed.
Lemma interleaved_perm {Ev} (ls : list (list Ev)) l : interleaved ls l -> Permutation (concat ls) l.
Proof.
  induction 1 as [ls H|a e t b l H IH].
  - replace (concat ls) with (@nil Ev); [constructor|]. induction H as [|x y -> H IH]; [reflexivity|exact IH].
  - rewrite concat_app in *. cbn [concat app] in *. symmetry. apply Permutation_cons_app. symmetry. exact IH.
Qed.
(* at most one thread has events satisfying p *)
Definition lonely {Ev} (p : Ev -> bool) (ls : list (list Ev)) : Prop :=
  forall a t b, ls = a ++ t :: b -> filter p t <> [] -> filter p (concat a) = [] /\ filter p (concat b) = [].
Lemma interleaved_filter {Ev} (p : Ev -> bool) ls l : interleaved ls l -> lonely p ls -> filter p l = filter p (concat ls).
Proof.
  induction 1 as [ls H|a e t b l H IH]; intros L.
  - rewrite filter_concat_nil by exact H. reflexivity.
  - assert (L2 : lonely p (a ++ t :: b)).
    { intros a' t' b' E N. clear IH H.
      (* position of the chosen list *)
      destruct (Nat.lt_trichotomy (length a') (length a)) as [D|[D|D]].
      - assert (S : exists m, a = a' ++ t' :: m).
        { clear -E D. revert a E D. induction a' as [|y a' IH]; intros [|x a] E D; try (cbn in D; lia); cbn in E; injection E as -> E.
          - exists a. reflexivity.
          - destruct (IH a E ltac:(cbn in D; lia)) as (m & ->). exists m. reflexivity. }
        destruct S as [m ->]. rewrite <- app_assoc in E. apply app_inv_head in E. cbn [app] in E. injection E as E.
        destruct (L a' t' (m ++ (e :: t) :: b)) as [L1 L3]; [rewrite <- app_assoc; reflexivity|exact N|].
        split; [exact L1|]. rewrite <- E. rewrite concat_app in *. cbn [concat] in *. rewrite !filter_app in *. cbn [app filter] in L3.
        apply app_eq_nil in L3. destruct L3 as [L3 L4]. rewrite L3. destruct (p e); [discriminate|]. exact L4.
      - assert (a' = a /\ t' = t /\ b' = b) as (-> & -> & ->).
        { clear -E D. revert a' E D. induction a as [|x a IH]; intros [|y a'] E D; try discriminate; cbn in E; [injection E as -> ->; auto|].
          injection E as -> E. destruct (IH a' E ltac:(cbn in D; lia)) as (-> & -> & ->). auto. }
        apply (L a (e :: t) b); [reflexivity|]. cbn. destruct (p e); [discriminate|exact N].
      - assert (S : exists m, a' = a ++ t :: m /\ b = m ++ t' :: b').
        { clear -E D. revert a' E D. induction a as [|x a IH]; intros [|y a'] E D; try (cbn in D; lia); cbn in E; injection E as -> E.
          - exists a'. auto.
          - destruct (IH a' E ltac:(cbn in D; lia)) as (m & -> & ->). exists m. auto. }
        destruct S as (m & -> & ->).
        destruct (L (a ++ (e :: t) :: m) t' b') as [L1 L3]; [rewrite <- app_assoc; reflexivity|exact N|].
        split; [|exact L3]. rewrite concat_app in *. cbn [concat] in *. rewrite !filter_app in *. cbn [app filter] in L1.
        apply app_eq_nil in L1. destruct L1 as [L1 L4]. rewrite L1. destruct (p e); [discriminate|]. exact L4. }
    specialize (IH L2). rewrite concat_app in *. cbn [concat app filter] in *. rewrite filter_app in *. cbn [filter app] in *.
    destruct (p e) eqn:Pe.
    + destruct (L a (e :: t) b eq_refl) as [L1 _]; [cbn; rewrite Pe; discriminate|]. rewrite L1 in *. cbn [app] in *. rewrite IH. reflexivity.
    + exact IH.
Qed.

Section Machine.
Context {T : Type} {NT : Num T}.
Notation event := (event T).
Notation cells := (cells T).
Implicit Types (o : observer T) (ops : Z * Z -> list (ftrace T -> res (ftrace T))).
Lemma same_cell_spec a b : reflect (a = b) (same_cell a b).
Proof.
  destruct a as [x y], b as [u v]. unfold same_cell. cbn [fst snd]. destruct (Z.eqb_spec x u), (Z.eqb_spec y v); constructor; congruence.
Qed.
Definition of_cell (xy : Z * Z) (e : event) : bool := match e with Count => false | Work c _ => same_cell c xy end.
Definition is_count (e : event) : bool := match e with Count => true | Work _ _ => false end.
Definition the_op (e : event) : ftrace T -> res (ftrace T) := match e with Count => fun tr => Ok tr | Work _ op => op end.
Definition local_run (xy : Z * Z) (l : list event) (tr : ftrace T) : res (ftrace T) := do_ops (map the_op (filter (of_cell xy) l)) tr.

Lemma run_local : forall l n m n' m', run l (n, m) = Ok (n', m') ->
  n' = n + Z.of_nat (length (filter is_count l)) /\ forall xy, local_run xy l (m xy) = Ok (m' xy).
Proof.
  induction l as [|e l IH]; intros n m n' m' H; unfold run in H; cbn [fold_res] in H.
  - injection H as <- <-. split; [cbn; lia|reflexivity].
  - bget H as st E. destruct st as [n1 m1]. destruct (IH _ _ _ _ H) as [A B]. destruct e as [|c op]; cbn [event_step] in E.
    + injection E as <- <-. split; [|exact B]. cbn [filter is_count length]. lia.
    + bget E as tr Et. injection E as <- <-. split; [exact A|]. intros xy. specialize (B xy). unfold local_run in *. cbn [filter of_cell].
      destruct (same_cell_spec c xy) as [->|N].
      * cbn [map the_op]. unfold do_ops in *. cbn [fold_res]. rewrite Et. cbn [bind].
        destruct (same_cell_spec xy xy) as [_|N]; [exact B|congruence].
      * destruct (same_cell_spec xy c) as [E|_]; [congruence|exact B].
Qed.
Lemma run_total : forall l n m, (forall xy, exists tr, local_run xy l (m xy) = Ok tr) -> exists n' m', run l (n, m) = Ok (n', m').
Proof.
  induction l as [|e l IH]; intros n m H; unfold run; cbn [fold_res]; [eauto|].
  destruct e as [|c op]; cbn [event_step].
  - cbn [bind]. apply IH. exact H.
  - destruct (H c) as [tr E]. unfold local_run in E. cbn [filter of_cell] in E. destruct (same_cell_spec c c) as [_|N]; [|congruence].
    cbn [map the_op] in E. unfold do_ops in E. cbn [fold_res] in E. bget E as tr1 E1. rewrite E1. cbn [bind]. apply IH.
    intros xy. destruct (same_cell_spec xy c) as [->|N].
    + exists tr. exact E.
    + destruct (H xy) as [tr' E']. exists tr'. unfold local_run in *. cbn [filter of_cell] in E'.
      destruct (same_cell_spec c xy) as [->|_]; [congruence|exact E'].
Qed.
Lemma thread_filter ops cs xy : filter (of_cell xy) (thread ops cs) = flat_map (fun c => if same_cell c xy then map (Work c) (ops c) else []) cs.
Proof.
  unfold thread. induction cs as [|c cs IH]; [reflexivity|]. cbn [flat_map]. rewrite filter_app, IH. f_equal. cbn [filter of_cell].
  induction (ops c) as [|op l IHl]; cbn [map filter of_cell]; [destruct (same_cell c xy); reflexivity|]. rewrite IHl.
  destruct (same_cell c xy); reflexivity.
Qed.
Lemma thread_out ops cs xy : ~ In xy cs -> filter (of_cell xy) (thread ops cs) = [].
Proof.
  rewrite thread_filter. induction cs as [|c cs IH]; intros N; [reflexivity|]. cbn [flat_map]. cbn in N.
  destruct (same_cell_spec c xy) as [->|_]; [tauto|]. apply IH. tauto.
Qed.
Lemma thread_in ops cs xy : NoDup cs -> In xy cs -> filter (of_cell xy) (thread ops cs) = map (Work xy) (ops xy).
Proof.
  intros ND I. induction ND as [|c cs N ND IH]; [destruct I|].
  rewrite thread_filter. cbn [flat_map]. rewrite <- thread_filter with (ops := ops). destruct I as [->|I].
  - destruct (same_cell_spec xy xy) as [_|X]; [|congruence]. rewrite thread_out by exact N. apply app_nil_r.
  - destruct (same_cell_spec c xy) as [->|_]; [tauto|]. exact (IH I).
Qed.
Lemma thread_app ops a b : thread ops (a ++ b) = thread ops a ++ thread ops b.
Proof. unfold thread. apply flat_map_app. Qed.
Lemma threads_concat ops ts : concat (map (thread ops) ts) = thread ops (concat ts).
Proof. induction ts as [|t ts IH]; [reflexivity|]. cbn [map concat]. rewrite thread_app, IH. reflexivity. Qed.
Lemma map_split {A B} (f : A -> B) : forall l a t b, map f l = a ++ t :: b -> exists a' t' b', l = a' ++ t' :: b' /\ a = map f a' /\ t = f t' /\ b = map f b'.
Proof.
  induction l as [|x l IH]; intros [|y a] t b H; try discriminate; cbn in H; injection H as H1 H2.
  - exists [], x, l. auto.
  - destruct (IH a t b H2) as (a' & t' & b' & -> & -> & -> & ->). exists (x :: a'), t', b'. cbn. rewrite H1. auto.
Qed.
Lemma threads_lonely ops ts xy : NoDup (concat ts) -> lonely (of_cell xy) (map (thread ops) ts).
Proof.
  intros ND a t b E N. apply map_split in E. destruct E as (a' & t' & b' & -> & -> & -> & ->).
  assert (I : In xy t'). { destruct (in_dec (fun a b => reflect_dec _ _ (same_cell_spec a b)) xy t') as [I|I]; [exact I|]. exfalso. apply N, thread_out, I. }
  rewrite concat_app in ND. cbn [concat] in ND. rewrite !threads_concat.
  assert (Q : ~ In xy (concat a') /\ ~ In xy (concat b')).
  { split; intros J.
    - apply in_split in J. destruct J as (u & v & J). rewrite J in ND. rewrite <- app_assoc in ND. cbn [app] in ND.
      apply NoDup_remove_2 in ND. apply ND. rewrite !in_app_iff. tauto.
    - apply in_split in I. destruct I as (u & v & I). rewrite I in ND.
      rewrite <- (app_assoc u) in ND. cbn [app] in ND. rewrite app_assoc in ND. apply NoDup_remove_2 in ND. apply ND.
      rewrite !in_app_iff. tauto. }
  split; apply thread_out; apply Q.
Qed.
Lemma threads_count ops cs : length (filter is_count (thread ops cs)) = length cs.
Proof.
  induction cs as [|c cs IH]; [reflexivity|]. unfold thread. cbn [flat_map]. rewrite filter_app, app_length. fold (thread ops cs).
  rewrite IH. cbn [filter is_count length]. replace (filter is_count (map (Work c) (ops c))) with (@nil event); [reflexivity|].
  induction (ops c); [reflexivity|assumption].
Qed.
Lemma perm_filter_length {A} (p : A -> bool) l l' : Permutation l l' -> length (filter p l) = length (filter p l').
Proof.
  induction 1 as [|x l l' H IH|x y l|l l' l'' H IH H' IH']; [reflexivity| | |congruence].
  - cbn. destruct (p x); cbn; congruence.
  - cbn. destruct (p x), (p y); reflexivity.
Qed.

Lemma all_cells_in o xy : In xy (all_cells o) <-> in_cells o xy.
Proof. unfold all_cells, in_cells. destruct (extent o) as [[nx ny] n]. destruct xy as [x y]. apply pairs_in. Qed.
Lemma all_cells_nodup o : NoDup (all_cells o).
Proof. unfold all_cells. destruct (extent o) as [[nx ny] n]. apply pairs_nodup. Qed.

Lemma local_schedule ops o ts l xy tr : Permutation (concat ts) (all_cells o) -> interleaved (map (thread ops) ts) l -> in_cells o xy ->
  local_run xy l tr = do_ops (ops xy) tr.
Proof.
  intros P H I. assert (ND : NoDup (concat ts)) by (eapply Permutation_NoDup; [symmetry; exact P|apply all_cells_nodup]).
  unfold local_run. rewrite (interleaved_filter _ _ _ H (threads_lonely ops ts xy ND)), threads_concat.
  rewrite thread_in; [|exact ND|]. 2: { eapply Permutation_in; [symmetry; exact P|]. apply all_cells_in. exact I. }
  rewrite map_map. cbn [the_op]. rewrite map_id. reflexivity.
Qed.
Lemma local_other ops o ts l xy tr : Permutation (concat ts) (all_cells o) -> interleaved (map (thread ops) ts) l -> ~ in_cells o xy ->
  local_run xy l tr = Ok tr.
Proof.
  intros P H I. assert (ND : NoDup (concat ts)) by (eapply Permutation_NoDup; [symmetry; exact P|apply all_cells_nodup]).
  unfold local_run. rewrite (interleaved_filter _ _ _ H (threads_lonely ops ts xy ND)), threads_concat.
  rewrite thread_out; [reflexivity|]. intros J. apply I, all_cells_in. eapply Permutation_in; [exact P|exact J].
Qed.

Lemma parallel_ok src (o : observer T) ops (m0 : cells) ts l : shaped o ->
  (forall xy, in_cells o xy -> cell_of o xy = Ok (m0 xy)) ->
  (forall xy tr, in_cells o xy -> do_ops (ops xy) tr = cell_op src o xy tr) ->
  Permutation (concat ts) (all_cells o) -> interleaved (map (thread ops) ts) l ->
  forall o', obs_integrate src o = Ok o' <->
    like o o' /\ exists m', run l (0, m0) = Ok (Z.of_nat (length (all_cells o)), m') /\ forall xy, in_cells o xy -> cell_of o' xy = Ok (m' xy).
Proof.
  intros Sh M0 OPS P H o'.
  assert (CNT : length (filter is_count l) = length (all_cells o)).
  { rewrite <- (perm_filter_length is_count _ _ (interleaved_perm _ _ H)), threads_concat, threads_count. apply Permutation_length. exact P. }
  split.
  - intros E. destruct (integrate_ok _ _ _ Sh E) as [K C]. split; [exact K|].
    destruct (run_total l 0 m0) as (n' & m' & R1).
    { intros xy. destruct (in_dec (fun a b => reflect_dec _ _ (same_cell_spec a b)) xy (all_cells o)) as [I|I]; rewrite all_cells_in in I.
      - rewrite (local_schedule ops o ts l xy _ P H I), (OPS _ _ I). destruct (C xy I) as (tr & r & C1 & C2 & C3).
        rewrite (M0 _ I) in C1. okinj C1. eauto.
      - rewrite (local_other ops o ts l xy _ P H I). eauto. }
    destruct (run_local _ _ _ _ _ R1) as [A B]. exists m'. split; [etransitivity; [exact R1|]; replace n' with (Z.of_nat (length (all_cells o))) by lia; reflexivity|].
    intros xy I. destruct (C xy I) as (tr & r & C1 & C2 & C3). rewrite (M0 _ I) in C1. okinj C1.
    specialize (B xy). rewrite (local_schedule ops o ts l xy _ P H I), (OPS _ _ I) in B. congruence.
  - intros (K & m' & R1 & C). destruct (run_local _ _ _ _ _ R1) as [_ B].
    destruct (integrate_total src o Sh) as [o2 E].
    { intros xy I. exists (m0 xy). rewrite (M0 _ I). specialize (B xy). rewrite (local_schedule ops o ts l xy _ P H I), (OPS _ _ I) in B.
      eauto. }
    rewrite E. f_equal. destruct (integrate_ok _ _ _ Sh E) as [K2 C2].
    apply observer_ext; [eapply like_shaped; eauto|eapply like_trans; [apply like_sym; exact K2|exact K]|].
    intros xy I2. assert (I : in_cells o xy). { unfold in_cells in *. rewrite (like_extent _ _ K2) in I2. exact I2. }
    rewrite (C xy I). destruct (C2 xy I) as (tr & r & A1 & A2 & A3). rewrite (M0 _ I) in A1. okinj A1.
    specialize (B xy). rewrite (local_schedule ops o ts l xy _ P H I), (OPS _ _ I) in B. congruence.
Qed.
End Machine.
