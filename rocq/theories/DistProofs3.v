(* Bunches made from distributions of any dimension. *)
From Coq Require Import ZArith List Lia Bool.
From Verif Require Import Base BaseFacts Num VecModel ParticleModel BunchModel DistSpec DistProofs.
From Verif Require TraceProofs2.
Import ListNotations.
Local Open Scope Z_scope.

Section P.
Context {T : Type} {NT : Num T}.
(* coordinate k of particle i; zero if the distribution has no such coordinate *)
Definition coord0 (d : dist T) (i k : Z) : T := if k <? dDIM d then the_coord d i k else nZ 0.
Lemma get_coord0 d i k : wf_dist d -> 0 <= i < dNOP d -> 0 <= k -> d_coordinate d i k = Ok (coord0 d i k).
Proof.
  intros W Hi Hk. unfold coord0. destruct (Z.ltb_spec k (dDIM d)).
  - apply getCoordinate_ok; [exact W|split; lia|]. apply the_coord_some; [exact W|split; lia].
  - unfold d_coordinate. rewrite dim_ok_false by lia. reflexivity.
Qed.
Lemma from_dist (d : dist T) t0 x0 p0 charge mass : wf_dist d ->
  bunch_from_dist d t0 x0 p0 charge mass = Ok (map (fun i =>
    initTrajectory (nadd t0 (coord0 d i 6)) (vadd x0 (V (coord0 d i 0) (coord0 d i 1) (coord0 d i 2)))
       (vadd p0 (V (coord0 d i 3) (coord0 d i 4) (coord0 d i 5))) (V (nZ 0) (nZ 0) (nZ 0)) (new_particle charge mass)) (zseq 0 (Z.to_nat (dNOP d)))).
Proof.
  intros W. unfold bunch_from_dist. apply TraceProofs2.map_res_ext. intros i Hi. apply TraceProofs2.zseq_in in Hi.
  assert (0 <= dNOP d) by (destruct W; lia). assert (0 <= i < dNOP d) by lia.
  rewrite !get_coord0 by (assumption || lia). reflexivity.
Qed.

End P.
