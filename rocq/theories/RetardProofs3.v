(* Arrival order along tracked trajectories; the derivative of the velocity. *)
From Coq Require Import ZArith Reals Lra Lia Psatz List Bool.
From Verif Require Import Base BaseFacts Num VecModel VecFacts ParticleModel ParticleSpec
  ParticleSpec2 ParticleProofs ParticleProofs2 VaySpec VayProofs VayTracking VayTracking2
  TraceModel RetardModel RetardSpec RetardProofs RetardProofs2.
Import ListNotations.
Local Open Scope R_scope.

Lemma subluminal_app l a b :
  subluminal (l ++ [a]) -> slower_than_light a b -> subluminal ((l ++ [a]) ++ [b]).
Proof.
  intros Hl Hab i x y Hx Hy.
  destruct (Nat.lt_ge_cases (S i) (length (l ++ [a]))) as [Hi|Hi].
  - rewrite nth_error_app1 in Hx, Hy by lia. exact (Hl i x y Hx Hy).
  - rewrite app_length in Hi. cbn [length] in Hi.
    assert (Hs : (S i < length ((l ++ [a]) ++ [b]))%nat) by (apply nth_error_Some; congruence).
    rewrite !app_length in Hs. cbn [length] in Hs. assert (i = length l) by lia. subst i.
    rewrite nth_error_app1 in Hx by (rewrite app_length; cbn; lia).
    rewrite nth_error_app2, Nat.sub_diag in Hx by lia. injection Hx as <-.
    rewrite nth_error_app2 in Hy by (rewrite app_length; cbn; lia).
    rewrite app_length in Hy. cbn [length] in Hy.
    replace (S (length l) - (length l + 1))%nat with O in Hy by lia. injection Hy as <-. exact Hab.
Qed.

Lemma nth_last_app {A} (l : list A) a :
  nth_error l (length l - 1) = Some a -> exists i, l = i ++ [a].
Proof.
  intros H. destruct l as [|x r]; [discriminate|].
  destruct (@exists_last _ (x :: r)) as (i & b & E); [discriminate|].
  rewrite E, app_length in H. cbn [length] in H.
  rewrite nth_error_app2 in H by lia. replace (length i + 1 - 1 - length i)%nat with O in H by lia.
  injection H as <-. exists i; exact E.
Qed.

Lemma setup_subluminal dt F (p q : particle R) :
  wf p -> subluminal (trajectory p) -> InitVay dt F p = Ok q -> subluminal (trajectory q).
Proof.
  intros Hw Hs H. destruct (InitVay_trajectory dt F p q Hw H) as (i & l & a & A & B & _).
  assert (Hn : forall k x, nth_error (trajectory q) k = Some x ->
             exists y, nth_error (trajectory p) k = Some y /\ tpt y = tpt x /\ tpx y = tpx x).
  { intros k x Hx. rewrite B in Hx. rewrite A.
    destruct (Nat.lt_ge_cases k (length i)).
    - rewrite nth_error_app1 in Hx |- * by lia. exists x; auto.
    - rewrite nth_error_app2 in Hx |- * by lia.
      destruct (k - length i)%nat as [|n]; [|destruct n; discriminate Hx].
      injection Hx as <-. exists l; auto. }
  intros k x y Hx Hy. destruct (Hn _ _ Hx) as (x' & A1 & A2 & A3). destruct (Hn _ _ Hy) as (y' & B1 & B2 & B3).
  pose proof (Hs k x' y' A1 B1) as R. unfold slower_than_light in *. rewrite A2, A3, B2, B3 in R. exact R.
Qed.

Lemma tracking_subluminal dt F0 Fs (p0 p1 q : particle R) :
  0 < dt -> wf p0 -> subluminal (trajectory p0) ->
  InitVay dt F0 p0 = Ok p1 -> run_steps Fs p1 = Ok q -> subluminal (trajectory q).
Proof.
  intros Hdt Hw Hs H0 H.
  assert (Ht1 : tracked dt p1) by (exists p0, p1, F0, []; repeat split; auto; apply Hw).
  pose proof (setup_subluminal dt F0 p0 p1 Hw Hs H0) as Hs1. clear Hw Hs H0 p0 F0.
  revert p1 Ht1 Hs1 H. induction Fs as [|F Fs IH]; intros p1 Ht Hs H.
  - cbn in H. okinj H. exact Hs.
  - cbn in H. bget H as r Hr.
    pose proof (tracked_tstate dt p1 Ht) as (Hw & _ & _ & _ & _ & HN & Hsy).
    apply (IH r); [exact (tracked_step dt F p1 r Ht Hr)| |exact H].
    destruct (StepVay_trajectory F p1 r Hw Hr) as (Htr & _). rewrite Htr.
    destruct (nth_last_app _ _ (synced_last p1 Hw Hsy ltac:(lia))) as [i Hi]. rewrite Hi in Hs |- *.
    apply subluminal_app; [exact Hs|]. unfold slower_than_light, current. cbn [tpt tpx].
    exact (step_subluminal dt F p1 r Hdt Ht Hr).
Qed.

Lemma arrivals_increase l obs : subluminal l -> increasing (map (arrival obs) l).
Proof.
  intros Hs i j a b Hij. revert b. induction Hij as [|j Hij IH]; intros b Ha Hb.
  - rewrite nth_error_map in Ha, Hb.
    destruct (nth_error l i) as [x|] eqn:Ex; [|discriminate].
    destruct (nth_error l (S i)) as [y|] eqn:Ey; [|discriminate].
    injection Ha as <-. injection Hb as <-. apply arrival_order. exact (Hs i x y Ex Ey).
  - assert (Hj : (S j < length (map (arrival obs) l))%nat) by (apply nth_error_Some; congruence).
    destruct (nth_error (map (arrival obs) l) j) as [c|] eqn:Ec.
    2:{ apply nth_error_None in Ec. lia. }
    apply Rlt_trans with c; [apply IH; auto|].
    rewrite nth_error_map in Ec, Hb.
    destruct (nth_error l j) as [x|] eqn:Ex; [|discriminate].
    destruct (nth_error l (S j)) as [y|] eqn:Ey; [|discriminate].
    injection Ec as <-. injection Hb as <-. apply arrival_order. exact (Hs j x y Ex Ey).
Qed.

(* ---- beta_dot is the time derivative of the velocity ---- *)
Definition vderive (f : R -> vec R) (t : R) (d : vec R) : Prop :=
  derivable_pt_lim (fun s => vx (f s)) t (vx d) /\ derivable_pt_lim (fun s => vy (f s)) t (vy d) /\ derivable_pt_lim (fun s => vz (f s)) t (vz d).

Lemma beta_dot_correct (m : R -> vec R) t a :
  vderive m t a -> vderive (fun s => beta_of (m s)) t (beta_dot (m t) a).
Proof.
  intros (Hx & Hy & Hz).
  assert (Hg : derivable_pt_lim (fun s => gamma_of (m s)) t (vdot (m t) a / gamma_of (m t))).
  { unfold gamma_of. pose proof (vabs2_nonneg (m t)) as Hp.
    assert (Hs : derivable_pt_lim (fun s => 1 + vabs2 (m s)) t (2 * vdot (m t) a)).
    { replace (2 * vdot (m t) a) with
        (0 + ((vx a * vx (m t) + vx (m t) * vx a) + (vy a * vy (m t) + vy (m t) * vy a)
         + (vz a * vz (m t) + vz (m t) * vz a))) by (unfold vdot; unnum; ring).
      apply (derivable_pt_lim_plus (fun _ => 1)); [apply derivable_pt_lim_const|].
      apply (derivable_pt_lim_plus (fun s => vx (m s) * vx (m s) + vy (m s) * vy (m s))).
      - apply (derivable_pt_lim_plus (fun s => vx (m s) * vx (m s)));
          apply (derivable_pt_lim_mult (fun s => _) (fun s => _)); assumption.
      - apply (derivable_pt_lim_mult (fun s => _) (fun s => _)); assumption. }
    pose proof (derivable_pt_lim_comp (fun s => 1 + vabs2 (m s)) sqrt t _ (/ (2 * sqrt (1 + vabs2 (m t))))
                 Hs ltac:(apply derivable_pt_lim_sqrt; lra)) as H.
    assert (0 < sqrt (1 + vabs2 (m t))) by (apply sqrt_lt_R0; lra).
    replace (vdot (m t) a / sqrt (1 + vabs2 (m t)))
      with (/ (2 * sqrt (1 + vabs2 (m t))) * (2 * vdot (m t) a)) by (field; lra).
    exact H. }
  pose proof (gamma_of_pos (m t)) as Hp.
  assert (Hc : forall (f : R -> R) d, derivable_pt_lim f t d ->
     derivable_pt_lim (fun s => f s / gamma_of (m s)) t
       ((d - f t / gamma_of (m t) * (vdot (m t) a / gamma_of (m t))) * / gamma_of (m t))).
  { intros f d Hf. replace ((d - f t / gamma_of (m t) * (vdot (m t) a / gamma_of (m t))) * / gamma_of (m t))
      with ((d * gamma_of (m t) - vdot (m t) a / gamma_of (m t) * f t) / Rsqr (gamma_of (m t)))
      by (unfold Rsqr; field; lra).
    apply (derivable_pt_lim_div f (fun s => gamma_of (m s))); auto. lra. }
  assert (Hd : vdot (beta_of (m t)) a = vdot (m t) a / gamma_of (m t))
    by (unfold beta_of; apply vdot_div_l).
  unfold beta_dot. rewrite Hd. unfold vderive. repeat split; cbn [vx vy vz vmul vsub beta_of vdiv].
  - exact (Hc _ _ Hx).
  - exact (Hc _ _ Hy).
  - exact (Hc _ _ Hz).
Qed.

(* the stored acceleration A/gamma is that derivative exactly if A is
   perpendicular to the velocity or the particle is at rest *)
Lemma beta_dot_perp m a : vdot m a = 0 -> vmul a (/ gamma_of m) = beta_dot m a.
Proof.
  intros H. unfold beta_dot, beta_of. rewrite vdot_div_l, H. unfold Rdiv. rewrite Rmult_0_l.
  generalize (gamma_of m). intros g. vdestr; vunfold; unnum; vsplit; ring.
Qed.
