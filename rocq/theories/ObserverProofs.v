(* Proofs about the storage of the observers: export and import. *)
From Coq Require Import ZArith List Lia Bool.
From Verif Require Import Base BaseFacts Num VecModel TraceModel TraceProofs2 BunchModel DriverModel DriverProofs
  ObserverModel ObserverSpec.
Import ListNotations.
Local Open Scope Z_scope.

(* ---- index grids ---- *)
Lemma prod_nth {A B} (l1 : list A) (l2 : list B) : forall i j x y,
  nth_error l1 i = Some x -> nth_error l2 j = Some y ->
  nth_error (flat_map (fun x => map (fun y => (x, y)) l2) l1) (i * length l2 + j)%nat = Some (x, y).
Proof.
  induction l1 as [|a l1 IH]; intros [|i] j x y H1 H2; try discriminate.
  - cbn in H1. injection H1 as ->. cbn [flat_map Nat.mul Nat.add]. rewrite nth_error_app1.
    + apply map_nth_error. exact H2.
    + rewrite map_length. apply nth_error_Some. congruence.
  - cbn [flat_map]. rewrite nth_error_app2; rewrite map_length; [|cbn [Nat.mul]; lia].
    replace (S i * length l2 + j - length l2)%nat with (i * length l2 + j)%nat by (cbn [Nat.mul]; lia).
    apply IH; assumption.
Qed.
Lemma prod_in {A B} (l1 : list A) (l2 : list B) x y :
  In (x, y) (flat_map (fun x => map (fun y => (x, y)) l2) l1) <-> In x l1 /\ In y l2.
Proof.
  rewrite in_flat_map. split.
  - intros (a & H1 & H2). apply in_map_iff in H2. destruct H2 as (b & E & H2). injection E as <- <-. auto.
  - intros [H1 H2]. exists x. split; [exact H1|]. apply in_map_iff. eauto.
Qed.
Lemma prod_length {A B} (l1 : list A) (l2 : list B) :
  length (flat_map (fun x => map (fun y => (x, y)) l2) l1) = (length l1 * length l2)%nat.
Proof. induction l1 as [|a l1 IH]; [reflexivity|]. cbn [flat_map length Nat.mul]. rewrite app_length, map_length, IH. reflexivity. Qed.
Lemma nodup_app {A} (a b : list A) : NoDup a -> NoDup b -> (forall x, In x a -> In x b -> False) -> NoDup (a ++ b).
Proof.
  intros H1 H2 H. induction H1 as [|x l N H1 IH]; [exact H2|]. cbn. constructor.
  - rewrite in_app_iff. intros [I|I]; [exact (N I)|]. apply (H x); [left; reflexivity|exact I].
  - apply IH. intros y I1 I2. apply (H y); [right; exact I1|exact I2].
Qed.
Lemma prod_nodup {A B} (l1 : list A) (l2 : list B) : NoDup l1 -> NoDup l2 ->
  NoDup (flat_map (fun x => map (fun y => (x, y)) l2) l1).
Proof.
  intros H1 H2. induction H1 as [|x l N H1 IH]; [constructor|]. cbn [flat_map]. apply nodup_app.
  - apply FinFun.Injective_map_NoDup; [|exact H2]. intros a b E. congruence.
  - exact IH.
  - intros [a b] I1 I2. apply in_map_iff in I1. destruct I1 as (c & E & I1). injection E as <- <-.
    apply prod_in in I2. destruct I2 as [I2 _]. exact (N I2).
Qed.
Lemma zseq_In a n z : In z (zseq a n) <-> a <= z < a + Z.of_nat n.
Proof.
  split; [apply zseq_in|]. revert a; induction n as [|n IH]; intros a H; [lia|]. cbn [zseq].
  destruct (Z.eq_dec a z) as [->|N]; [left; reflexivity|]. right. apply IH. lia.
Qed.
Lemma zseq_nodup n : forall a, NoDup (zseq a n).
Proof.
  induction n as [|n IH]; intros a; cbn [zseq]; constructor; [|apply IH].
  intros H. apply zseq_in in H. lia.
Qed.

Definition grid (nx ny n : Z) : list (Z * Z * Z) :=
  flat_map (fun xy => map (fun it => (xy, it)) (zseq 0 (Z.to_nat n))) (pairs nx ny).
Lemma pairs_in nx ny x y : In (x, y) (pairs nx ny) <-> 0 <= x < nx /\ 0 <= y < ny.
Proof. unfold pairs. rewrite prod_in, !zseq_In. lia. Qed.
Lemma pairs_nodup nx ny : NoDup (pairs nx ny).
Proof. apply prod_nodup; apply zseq_nodup. Qed.
Lemma pairs_nth nx ny x y : 0 <= x < nx -> 0 <= y < ny -> nth_error (pairs nx ny) (Z.to_nat (x * ny + y)) = Some (x, y).
Proof.
  intros Hx Hy. unfold pairs.
  replace (Z.to_nat (x * ny + y)) with (Z.to_nat x * length (zseq 0 (Z.to_nat ny)) + Z.to_nat y)%nat.
  - apply prod_nth; rewrite zseq_nth by lia; f_equal; lia.
  - rewrite zseq_length, Z2Nat.inj_add, Z2Nat.inj_mul by nia. reflexivity.
Qed.
Lemma grid_in nx ny n a b c : In (a, b, c) (grid nx ny n) <-> 0 <= a < nx /\ 0 <= b < ny /\ 0 <= c < n.
Proof. unfold grid. rewrite prod_in, pairs_in, zseq_In. lia. Qed.
Lemma grid_nodup nx ny n : NoDup (grid nx ny n).
Proof. apply prod_nodup; [apply pairs_nodup|apply zseq_nodup]. Qed.
Lemma grid_nth nx ny n a b c : 0 <= a < nx -> 0 <= b < ny -> 0 <= c < n ->
  nth_error (grid nx ny n) (Z.to_nat ((a * ny + b) * n + c)) = Some (a, b, c).
Proof.
  intros Ha Hb Hc. unfold grid.
  assert (Hq : 0 <= a * ny + b) by nia. pose proof (pairs_nth nx ny a b Ha Hb) as P. revert Hq P.
  generalize (a * ny + b). intros q Hq P.
  replace (Z.to_nat (q * n + c)) with (Z.to_nat q * length (zseq 0 (Z.to_nat n)) + Z.to_nat c)%nat.
  - apply prod_nth; [exact P|]. rewrite zseq_nth by lia. f_equal. lia.
  - rewrite zseq_length, Z2Nat.inj_add, Z2Nat.inj_mul by nia. reflexivity.
Qed.
Lemma grid_length nx ny n : 0 <= nx -> 0 <= ny -> 0 <= n -> Z.of_nat (length (grid nx ny n)) = nx * ny * n.
Proof.
  intros H1 H2 H3. unfold grid, pairs. rewrite !prod_length, !zseq_length. rewrite !Nat2Z.inj_mul, !Z2Nat.id by lia. reflexivity.
Qed.

(* ---- storage addressed by keys ---- *)
Section Lens.
Context {S K V : Type} (get : S -> K -> res V) (set : S -> K -> V -> res S) (ok : K -> Prop) (Inv : S -> Prop).
Definition lens_law : Prop :=
  (forall s k, Inv s -> ok k -> exists v, get s k = Ok v) /\
  (forall s k v, Inv s -> ok k -> exists s', set s k v = Ok s' /\ Inv s' /\ get s' k = Ok v /\
     forall k', ok k' -> k' <> k -> get s' k' = get s k').

(* update of every cell by its own operation *)
Definition update_all (f : K -> V -> res V) (ks : list K) (s : S) : res S :=
  fold_res (fun s k => bind (get s k) (fun a => bind (f k a) (set s k))) ks s.
Lemma update_ok (L : lens_law) f : forall ks s, NoDup ks -> Forall ok ks -> Inv s ->
  forall s', update_all f ks s = Ok s' ->
  Inv s' /\ (forall k, In k ks -> exists a, get s k = Ok a /\ get s' k = f k a /\ exists b, f k a = Ok b) /\
  (forall k, ok k -> ~ In k ks -> get s' k = get s k).
Proof.
  destruct L as [L1 L2]. induction ks as [|k ks IH]; intros s N O I s' H.
  - injection H as <-. split; [exact I|]. split; [intros k []|auto].
  - inversion N; subst; clear N. inversion O; subst; clear O. unfold update_all in H. cbn [fold_res] in H.
    bget H as s1 E. bget E as a Ea. bget E as b Eb.
    destruct (L2 s k b I H4) as (s1' & E1 & I1 & G1 & G2). rewrite E in E1. injection E1 as <-.
    destruct (IH s1 H3 H5 I1 s' H) as (I' & A & B). split; [exact I'|]. split.
    + intros k' [<-|Hk].
      * exists a. rewrite (B k H4 H2), G1. split; [exact Ea|]. split; [congruence|eauto].
      * destruct (A k' Hk) as (a' & A1 & A2 & A3). exists a'. rewrite G2 in A1; [auto| |].
        -- rewrite Forall_forall in H5. auto.
        -- intros ->. contradiction.
    + intros k' Ok' Nk. rewrite B; auto.
      * apply G2; auto. intros ->. apply Nk. left; reflexivity.
      * intros Hin. apply Nk. right; exact Hin.
Qed.
Lemma update_total (L : lens_law) f : forall ks s, NoDup ks -> Forall ok ks -> Inv s ->
  (forall k, In k ks -> exists a b, get s k = Ok a /\ f k a = Ok b) ->
  exists s', update_all f ks s = Ok s'.
Proof.
  destruct L as [L1 L2]. induction ks as [|k ks IH]; intros s N O I H; [eexists; reflexivity|].
  inversion N; subst; clear N. inversion O; subst; clear O.
  destruct (H k (or_introl eq_refl)) as (a & b & Ea & Eb).
  destruct (L2 s k b I H4) as (s1 & E1 & I1 & G1 & G2).
  destruct (IH s1 H3 H5 I1) as [s' E'].
  - intros k' Hk. destruct (H k' (or_intror Hk)) as (a' & b' & A & B). exists a', b'. split; [|exact B].
    rewrite G2; [exact A| |].
    + rewrite Forall_forall in H5; auto.
    + intros ->. contradiction.
  - exists s'. unfold update_all. cbn [fold_res]. rewrite Ea. cbn [bind]. rewrite Eb. cbn [bind]. rewrite E1. exact E'.
Qed.
(* storing a list of values *)
Lemma store_ok (L : lens_law) : forall ks vs s, NoDup ks -> Forall ok ks -> Inv s -> length vs = length ks ->
  exists s', fold_res (fun s kv => set s (fst kv) (snd kv)) (combine ks vs) s = Ok s' /\ Inv s' /\
    (forall i k v, nth_error ks i = Some k -> nth_error vs i = Some v -> get s' k = Ok v) /\
    (forall k, ok k -> ~ In k ks -> get s' k = get s k).
Proof.
  destruct L as [L1 L2]. induction ks as [|k ks IH]; intros [|v vs] s N O I HL; try discriminate.
  - exists s. split; [reflexivity|]. split; [exact I|]. split; [intros [|i] k v H; discriminate|auto].
  - inversion N; subst; clear N. inversion O; subst; clear O.
    destruct (L2 s k v I H3) as (s1 & E1 & I1 & G1 & G2).
    destruct (IH vs s1 H2 H4 I1) as (s' & E' & I' & A & B); [cbn in HL; lia|].
    exists s'. cbn [combine fold_res fst snd]. rewrite E1. cbn [bind]. split; [exact E'|]. split; [exact I'|]. split.
    + intros [|i] k' v' Hk Hv; cbn in Hk, Hv; [|eauto].
      injection Hk as <-. injection Hv as <-. rewrite B; auto.
    + intros k' Ok' Nk. rewrite B; auto.
      * apply G2; auto. intros ->. apply Nk. left; reflexivity.
      * intros Hin. apply Nk. right; exact Hin.
Qed.
End Lens.

(* one-dimensional arrays *)
Lemma zset_get {A} (l : list A) i a : 0 <= i < Z.of_nat (length l) ->
  exists l', zset l i a = Ok l' /\ length l' = length l /\ l' = lset l (Z.to_nat i) a /\
    zget l' i = Ok a /\ forall j, j <> i -> zget l' j = zget l j.
Proof.
  intros H. unfold zset. destruct (Z.ltb_spec i 0); [lia|]. destruct (Z.leb_spec (Z.of_nat (length l)) i); [lia|].
  cbn [orb]. eexists. split; [reflexivity|]. split; [apply lset_length|]. split; [reflexivity|]. split.
  - unfold zget. destruct (Z.ltb_spec i 0); [lia|]. rewrite lset_nth_eq by lia. reflexivity.
  - intros j N. unfold zget. destruct (Z.ltb_spec j 0); [reflexivity|]. rewrite lset_nth_neq by lia. reflexivity.
Qed.
Lemma forall_lset {A} (P : A -> Prop) l n a : Forall P l -> P a -> Forall P (lset l n a).
Proof. intros H Ha. revert n; induction H; intros [|n]; cbn; constructor; auto. Qed.
Lemma forall_zget {A} (P : A -> Prop) l i a : Forall P l -> zget l i = Ok a -> P a.
Proof. intros H E. apply zget_inv in E. destruct E as [_ E]. apply nth_error_In in E. rewrite Forall_forall in H. auto. Qed.
Lemma forall2_lset {A B} (P : A -> B -> Prop) l m n a b : Forall2 P l m -> nth_error l n = Some a -> P a b -> Forall2 P l (lset m n b).
Proof. intros H. revert n; induction H; intros [|n] E Hp; cbn in *; try discriminate; constructor; auto. congruence. Qed.
Lemma list_lens {A} n : lens_law (@zget A) (@zset A) (fun i => 0 <= i < n) (fun l => Z.of_nat (length l) = n).
Proof.
  split.
  - intros s k I O. destruct (zget_ok s k) as (v & E & _); [lia|]. eauto.
  - intros s k v I O. destruct (zset_get s k v) as (l' & E & Hl & _ & G1 & G2); [lia|].
    exists l'. split; [exact E|]. split; [lia|]. split; [exact G1|]. intros k' _ N. auto.
Qed.
(* two-dimensional arrays *)
Lemma cell_lens {A} nx ny : lens_law (fun (m : list (list A)) k => cell_get m (fst k) (snd k)) (fun m k => cell_set m (fst k) (snd k))
  (fun k => 0 <= fst k < nx /\ 0 <= snd k < ny)
  (fun m => Z.of_nat (length m) = nx /\ Forall (fun r => Z.of_nat (length r) = ny) m).
Proof.
  split.
  - intros s [x y] [I1 I2] [O1 O2]. cbn [fst snd] in *. unfold cell_get. destruct (zget_ok s x) as (r & E & _); [lia|].
    rewrite E. cbn [bind]. pose proof (forall_zget _ _ _ _ I2 E) as Hr. cbn beta in Hr.
    destruct (zget_ok r y) as (v & E' & _); [lia|]. eauto.
  - intros s [x y] v [I1 I2] [O1 O2]. cbn [fst snd] in *. unfold cell_get, cell_set. destruct (zget_ok s x) as (r & E & _); [lia|].
    rewrite E. cbn [bind]. pose proof (forall_zget _ _ _ _ I2 E) as Hr. cbn beta in Hr.
    destruct (zset_get r y v) as (r' & E1 & L1 & _ & G1 & G2); [lia|]. rewrite E1. cbn [bind].
    destruct (zset_get s x r') as (s' & E2 & L2 & D2 & G3 & G4); [lia|]. exists s'. split; [exact E2|]. split; [split|split].
    + lia.
    + rewrite D2. apply forall_lset; [exact I2|lia].
    + rewrite G3. exact G1.
    + intros [x' y'] _ N. cbn [fst snd]. destruct (Z.eq_dec x' x) as [->|Nx].
      * rewrite G3, E. cbn [bind]. apply G2. congruence.
      * rewrite G4 by exact Nx. reflexivity.
Qed.

(* ---- observers ---- *)
Section Obs.
Context {T : Type} {NT : Num T}.
Implicit Types o : observer T.

Lemma tr_like_refl (a : ftrace T) : tr_like a a.
Proof. repeat split. Qed.
Lemma tr_like_trans (a b c : ftrace T) : tr_like a b -> tr_like b c -> tr_like a c.
Proof. intros (A1 & A2 & A3) (B1 & B2 & B3). repeat split; congruence. Qed.
Lemma tr_like_sym (a b : ftrace T) : tr_like a b -> tr_like b a.
Proof. intros (A1 & A2 & A3). repeat split; congruence. Qed.
Lemma forall2_refl {A} (P : A -> A -> Prop) l : (forall a, P a a) -> Forall2 P l l.
Proof. intros H. induction l; constructor; auto. Qed.
Lemma forall2_trans {A} (P : A -> A -> Prop) : (forall a b c, P a b -> P b c -> P a c) ->
  forall l m n, Forall2 P l m -> Forall2 P m n -> Forall2 P l n.
Proof. intros H l m n H1. revert n; induction H1; intros k H2; inversion H2; subst; constructor; eauto. Qed.
Lemma like_refl o : like o o.
Proof.
  destruct o as [[]|[]|[]|[]]; cbn; split; try reflexivity; try apply tr_like_refl;
    repeat (apply forall2_refl; intros); try apply tr_like_refl; exact I.
Qed.
Lemma like_trans o o' o'' : like o o' -> like o' o'' -> like o o''.
Proof.
  assert (TT : forall a b c : list (ftrace T), Forall2 tr_like a b -> Forall2 tr_like b c -> Forall2 tr_like a c)
    by (apply forall2_trans; apply tr_like_trans).
  assert (UU : forall a b c : list (emf T), Forall2 (fun _ _ => True) a b -> Forall2 (fun _ _ => True) b c -> Forall2 (fun _ _ => True) a c)
    by (apply forall2_trans; auto).
  destruct o as [s|s|s|s], o' as [s'|s'|s'|s'], o'' as [s''|s''|s''|s'']; cbn; try tauto; intros [A1 A2] [B1 B2].
  - split; [rewrite B1; rewrite A1; reflexivity|]. eapply forall2_trans; eauto.
  - split; [rewrite B1; rewrite A1; reflexivity|]. eapply forall2_trans; eauto.
  - split; [congruence|]. eapply tr_like_trans; eauto.
  - split; [rewrite B1; rewrite A1; reflexivity|]. eauto.
Qed.

Lemma keys_grid o : shaped o -> obs_keys o = let '(nx, ny, n) := extent o in grid nx ny n.
Proof.
  destruct o as [s|s|s|s]; cbn [shaped obs_keys extent]; intros H.
  - reflexivity.
  - unfold grid. change (Z.to_nat 1) with 1%nat. cbn [zseq map]. induction (pairs _ _) as [|a l IH]; [reflexivity|].
    cbn [map flat_map app]. rewrite IH. reflexivity.
  - unfold grid, pairs, tr_N. change (Z.to_nat 1) with 1%nat. rewrite Nat2Z.id.
    cbn [zseq map flat_map app]. rewrite app_nil_r. reflexivity.
  - destruct H as (H1 & H2 & H3). unfold grid, mesh_Np. unfold pairs. rewrite Nat2Z.id. change (Z.to_nat 1) with 1%nat. cbn [zseq map].
    assert (Q : forall (l : list Z), flat_map (fun ix => [(ix, 0)]) l = map (fun ix => (ix, 0)) l).
    { induction l as [|a l IH]; [reflexivity|]. cbn [flat_map map app]. rewrite IH. reflexivity. }
    rewrite Q, <- H2.
    assert (G : forall (l : list (ftrace T)) a, Forall (fun tr => tr_N tr = msNt s) l ->
      flat_map (fun itr : Z * ftrace T => map (fun it => (fst itr, 0, it)) (zseq 0 (length (tr_f (snd itr))))) (combine (zseq a (length l)) l) =
      flat_map (fun xy => map (fun it => (xy, it)) (zseq 0 (Z.to_nat (msNt s)))) (map (fun ix => (ix, 0)) (zseq a (length l)))).
    { induction l as [|tr l IH]; intros a HF; [reflexivity|]. inversion HF as [|x y E HF']; subst.
      cbn [length zseq combine flat_map map fst snd]. f_equal; [|apply IH; assumption].
      rewrite <- E. unfold tr_N. rewrite Nat2Z.id. reflexivity. }
    apply G. exact H3.
Qed.
Lemma keys_in o k : shaped o -> (In k (obs_keys o) <-> inside o k).
Proof.
  intros H. rewrite (keys_grid o H). unfold inside. destruct (extent o) as [[nx ny] n], k as [[a b] c]. apply grid_in.
Qed.
Lemma extent_pos o : shaped o -> let '(nx, ny, n) := extent o in 0 <= nx /\ 0 <= ny /\ 0 <= n.
Proof. destruct o; cbn [shaped extent]; unfold mesh_Np, tr_N; lia. Qed.
Lemma keys_nodup o : shaped o -> NoDup (obs_keys o).
Proof. intros H. rewrite (keys_grid o H). destruct (extent o) as [[nx ny] n]. apply grid_nodup. Qed.
Lemma keys_length o : shaped o -> Z.of_nat (length (obs_keys o)) = fields o.
Proof.
  intros H. rewrite (keys_grid o H). unfold fields. pose proof (extent_pos o H) as P.
  destruct (extent o) as [[nx ny] n]. destruct P as (P1 & P2 & P3). apply grid_length; assumption.
Qed.
Lemma keys_place o k : shaped o -> inside o k -> nth_error (obs_keys o) (Z.to_nat (place o k)) = Some k.
Proof.
  intros H I. rewrite (keys_grid o H). unfold place, inside in *. destruct (extent o) as [[nx ny] n], k as [[a b] c].
  apply grid_nth; tauto.
Qed.

Lemma like_extent o o' : like o o' -> extent o' = extent o.
Proof.
  destruct o as [s|s|s|s], o' as [s'|s'|s'|s']; cbn; try tauto; intros [A1 A2].
  - rewrite A1. reflexivity.
  - rewrite A1. reflexivity.
  - destruct A2 as (_ & _ & A2). unfold tr_N. rewrite A2. reflexivity.
  - rewrite A1. reflexivity.
Qed.

Definition hold (o0 o : observer T) : Prop := shaped o /\ like o0 o.
Lemma tr_set_ok (tr : ftrace T) i f : 0 <= i < tr_N tr ->
  exists tr', tr_set tr i f = Ok tr' /\ tr_like tr tr' /\ tr_get tr' i = Ok f /\ forall j, j <> i -> tr_get tr' j = tr_get tr j.
Proof.
  intros H. unfold tr_set. rewrite (proj2 (tr_in_spec tr i) H).
  destruct (zset_get (tr_f tr) i f H) as (l' & E & HL & _ & G1 & G2). rewrite E. cbn [bind]. eexists. split; [reflexivity|].
  split; [repeat split; cbn; congruence|].
  assert (Q : forall j, tr_in (FT (tr_t0 tr) (tr_dt tr) l') j = tr_in tr j) by (intros j; unfold tr_in, tr_N; cbn; rewrite HL; reflexivity).
  split.
  - unfold tr_get. rewrite Q, (proj2 (tr_in_spec tr i) H). exact G1.
  - intros j N. unfold tr_get. rewrite Q. cbn [tr_f]. rewrite G2 by exact N. reflexivity.
Qed.
Lemma tr_get_ok (tr : ftrace T) i : 0 <= i < tr_N tr -> exists f, tr_get tr i = Ok f.
Proof.
  intros H. unfold tr_get. rewrite (proj2 (tr_in_spec tr i) H). destruct (zget_ok (tr_f tr) i H) as (f & E & _). eauto.
Qed.
Lemma tr_like_N (a b : ftrace T) : tr_like a b -> tr_N b = tr_N a.
Proof. intros (_ & _ & E). unfold tr_N. rewrite E. reflexivity. Qed.

Lemma screen_in_true (s : screen T) a b c : inside (OScreen s) (a, b, c) -> screen_in s a b c = true.
Proof.
  cbn. intros H. unfold screen_in. repeat rewrite andb_true_iff.
  repeat rewrite Z.leb_le. repeat rewrite Z.ltb_lt. lia.
Qed.
Lemma snap_in_true (s : snapshot T) a b c : inside (OSnap s) (a, b, c) -> snap_in s a b = true.
Proof.
  cbn. intros H. unfold snap_in. repeat rewrite andb_true_iff.
  repeat rewrite Z.leb_le. repeat rewrite Z.ltb_lt. lia.
Qed.

Lemma like_set_cell {A} (P : A -> A -> Prop) (m m' : list (list A)) x y r a b :
  (forall a, P a a) -> zget m x = Ok r -> zget r y = Ok a -> P a b -> (exists r', zset r y b = Ok r' /\ zset m x r' = Ok m') ->
  Forall2 (Forall2 P) m m'.
Proof.
  intros HR E1 E2 HP (r' & E3 & E4). apply zget_inv in E1. destruct E1 as [B1 E1]. apply zget_inv in E2. destruct E2 as [B2 E2].
  destruct (zset_get r y b B2) as (r'' & F1 & _ & F2 & _). rewrite E3 in F1. injection F1 as <-.
  destruct (zset_get m x r' B1) as (m'' & F3 & _ & F4 & _). rewrite E4 in F3. injection F3 as <-.
  subst. eapply forall2_lset; [|exact E1|].
  - apply forall2_refl. intros; apply forall2_refl; auto.
  - eapply forall2_lset; eauto. apply forall2_refl; auto.
Qed.

Lemma obs_get_ok o k : shaped o -> inside o k -> exists f, obs_get o k = Ok f.
Proof.
  destruct k as [[a b] c]. destruct o as [s|s|s|s]; intros H I.
  - cbn [obs_get]. unfold screen_get. rewrite (screen_in_true _ _ _ _ I). cbn in H, I.
    destruct H as (_ & _ & _ & H1 & H2). unfold cell_get. destruct (zget_ok (scTr s) a) as (r & E & _); [lia|]. rewrite E. cbn [bind].
    destruct (forall_zget _ _ _ _ H2 E) as [H3 H4]. destruct (zget_ok r b) as (tr & E' & _); [lia|]. rewrite E'. cbn [bind].
    apply tr_get_ok. rewrite (forall_zget _ _ _ _ H4 E'). lia.
  - cbn [obs_get]. unfold snap_get. rewrite (snap_in_true _ _ _ _ I). cbn in H, I.
    destruct H as (_ & _ & H1 & H2). unfold cell_get. destruct (zget_ok (snF s) a) as (r & E & _); [lia|]. rewrite E. cbn [bind].
    pose proof (forall_zget _ _ _ _ H2 E) as H3. cbn beta in H3. destruct (zget_ok r b) as (tr & E' & _); [lia|]. eauto.
  - cbn in I |- *. apply tr_get_ok. lia.
  - cbn in H, I |- *. unfold mesh_Np in I. destruct H as (_ & H1 & H2). unfold mesh_get. destruct (zget_ok (msA s) a) as (tr & E & _); [lia|].
    rewrite E. cbn [bind]. apply tr_get_ok. rewrite (forall_zget _ _ _ _ H2 E). lia.
Qed.

Lemma obs_set_ok o k f : shaped o -> inside o k -> exists o', obs_set o k f = Ok o' /\ shaped o' /\ like o o' /\
  obs_get o' k = Ok f /\ forall k', inside o k' -> k' <> k -> obs_get o' k' = obs_get o k'.
Proof.
  destruct k as [[a b] c]. destruct o as [s|s|s|s]; intros H I.
  - cbn [obs_set]. unfold screen_set. rewrite (screen_in_true _ _ _ _ I). pose proof I as I0. cbn in H, I.
    destruct H as (N1 & N2 & N3 & H1 & H2). unfold cell_get, cell_set.
    destruct (zget_ok (scTr s) a) as (r & E & _); [lia|]. rewrite E. cbn [bind].
    destruct (forall_zget _ _ _ _ H2 E) as [H3 H4]. destruct (zget_ok r b) as (tr & E' & _); [lia|]. rewrite E'. cbn [bind].
    pose proof (forall_zget _ _ _ _ H4 E') as H5. cbn beta in H5.
    destruct (tr_set_ok tr c f) as (tr' & E2 & K & G1 & G2); [lia|]. rewrite E2. cbn [bind].
    destruct (zset_get r b tr') as (r' & E3 & L3 & D3 & G3 & G4); [lia|]. rewrite E3. cbn [bind].
    destruct (zset_get (scTr s) a r') as (m & E4 & L4 & D4 & G5 & G6); [lia|]. rewrite E4. cbn [bind].
    eexists. split; [reflexivity|]. split; [|split; [|split]].
    + cbn. repeat split; try lia. rewrite D4. apply forall_lset; [exact H2|]. split; [lia|]. rewrite D3.
      apply forall_lset; [exact H4|]. rewrite (tr_like_N _ _ K). exact H5.
    + cbn. split; [reflexivity|]. eapply like_set_cell; eauto using tr_like_refl.
    + cbn [obs_get]. unfold screen_get. change (screen_in (screen_with s m) a b c) with (screen_in s a b c).
      rewrite (screen_in_true _ _ _ _ I0). unfold cell_get. cbn [scTr screen_with]. rewrite G5. cbn [bind]. rewrite G3. exact G1.
    + intros [[a' b'] c'] I' Nk. cbn [obs_get]. unfold screen_get.
      change (screen_in (screen_with s m) a' b' c') with (screen_in s a' b' c').
      rewrite (screen_in_true _ _ _ _ I'). unfold cell_get. cbn [scTr screen_with].
      destruct (Z.eq_dec a' a) as [->|Na]; [|rewrite G6 by exact Na; reflexivity].
      rewrite G5, E. cbn [bind]. destruct (Z.eq_dec b' b) as [->|Nb]; [|rewrite G4 by exact Nb; reflexivity].
      rewrite G3, E'. cbn [bind]. apply G2. congruence.
  - cbn [obs_set]. unfold snap_set. rewrite (snap_in_true _ _ _ _ I). pose proof I as I0. cbn in H, I.
    destruct H as (N1 & N2 & H1 & H2). unfold cell_set.
    destruct (zget_ok (snF s) a) as (r & E & _); [lia|]. rewrite E. cbn [bind].
    pose proof (forall_zget _ _ _ _ H2 E) as H3. cbn beta in H3. destruct (zget_ok r b) as (g & E' & _); [lia|].
    destruct (zset_get r b f) as (r' & E3 & L3 & D3 & G3 & G4); [lia|]. rewrite E3. cbn [bind].
    destruct (zset_get (snF s) a r') as (m & E4 & L4 & D4 & G5 & G6); [lia|]. rewrite E4. cbn [bind].
    eexists. split; [reflexivity|]. split; [|split; [|split]].
    + cbn. repeat split; try lia. rewrite D4. apply forall_lset; [exact H2|lia].
    + cbn. split; [reflexivity|]. eapply (like_set_cell (fun _ _ => True)); eauto.
    + cbn [obs_get]. unfold snap_get. change (snap_in (snap_with s m) a b) with (snap_in s a b).
      rewrite (snap_in_true _ _ _ _ I0). unfold cell_get. cbn [snF snap_with]. rewrite G5. cbn [bind]. exact G3.
    + intros [[a' b'] c'] I' Nk. cbn [obs_get]. unfold snap_get.
      change (snap_in (snap_with s m) a' b') with (snap_in s a' b').
      rewrite (snap_in_true _ _ _ _ I'). unfold cell_get. cbn [snF snap_with].
      destruct (Z.eq_dec a' a) as [->|Na]; [|rewrite G6 by exact Na; reflexivity].
      rewrite G5, E. cbn [bind]. destruct (Z.eq_dec b' b) as [->|Nb]; [|rewrite G4 by exact Nb; reflexivity].
      exfalso. cbn in I'. apply Nk. f_equal. lia.
  - cbn in I. cbn [obs_set]. destruct (tr_set_ok (poTr s) c f) as (tr' & E2 & K & G1 & G2); [lia|]. rewrite E2. cbn [bind].
    eexists. split; [reflexivity|]. split; [exact Logic.I|]. split; [split; [reflexivity|exact K]|]. split; [exact G1|].
    intros [[a' b'] c'] I' Nk. cbn in I' |- *. apply G2. intros ->. apply Nk. f_equal. f_equal; lia.
  - cbn in H, I. unfold mesh_Np in I. destruct H as (N1 & H1 & H2). cbn [obs_set]. unfold mesh_set.
    destruct (zget_ok (msA s) a) as (tr & E & _); [lia|]. rewrite E. cbn [bind].
    pose proof (forall_zget _ _ _ _ H2 E) as H5. cbn beta in H5.
    destruct (tr_set_ok tr c f) as (tr' & E2 & K & G1 & G2); [lia|]. rewrite E2. cbn [bind].
    destruct (zset_get (msA s) a tr') as (m & E4 & L4 & D4 & G5 & G6); [lia|]. rewrite E4. cbn [bind].
    eexists. split; [reflexivity|]. split; [|split; [|split]].
    + cbn. split; [exact N1|]. split; [lia|]. rewrite D4. apply forall_lset; [exact H2|]. rewrite (tr_like_N _ _ K). exact H5.
    + cbn. split; [reflexivity|]. rewrite D4. apply zget_inv in E. destruct E as [_ E].
      eapply forall2_lset; eauto. apply forall2_refl, tr_like_refl.
    + cbn. unfold mesh_get. cbn [msA mesh_with]. rewrite G5. cbn [bind]. exact G1.
    + intros [[a' b'] c'] I' Nk. cbn in I' |- *. unfold mesh_get. cbn [msA mesh_with].
      destruct (Z.eq_dec a' a) as [->|Na]; [|rewrite G6 by exact Na; reflexivity].
      rewrite G5, E. cbn [bind]. apply G2. intros ->. apply Nk. f_equal. f_equal. lia.
Qed.
Lemma obs_lens o0 : lens_law obs_get obs_set (inside o0) (hold o0).
Proof.
  assert (X : forall o k, hold o0 o -> inside o0 k -> inside o k).
  { intros o k [_ H]. unfold inside. rewrite (like_extent _ _ H). auto. }
  split.
  - intros o k H I. apply obs_get_ok; [apply H|]. apply X; auto.
  - intros o k f H I. destruct (obs_set_ok o k f (proj1 H) (X _ _ H I)) as (o' & E & S1 & K & G1 & G2).
    exists o'. split; [exact E|]. split; [split; [exact S1|]; eapply like_trans; [apply H|exact K]|]. split; [exact G1|].
    intros k' I' N. apply G2; auto.
Qed.
End Obs.
