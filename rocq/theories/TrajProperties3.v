(** More properties of trajectories: recomputed derivatives (C60) and ranges (C88). *)
From Coq Require Import String.
From Verif Require Import Base BaseLemmas TrajModel TrajSpec TrajProofs8 TrajExamples.
Open Scope R_scope.

(** ** C60. Recomputing the derivatives gives those of a new trajectory with the same times and
    positions (which are the central differences, see C60_central_differences), whatever velocities and
    accelerations were stored before; a filter gives those of the filtered positions. *)
Theorem C60_recompute : forall t d, consistent t -> (3 <= length (tj_ts t))%nat -> equidistant d (tj_ts t) -> d <> 0 -> tj_dt t = Some d -> exists u t',
  new_traj (tj_ts t) (V2 (tj_ys t)) None None None = Ok u /\ recompute_derivatives t = (t', Ok tt) /\ consistent t' /\
  tj_ts t' = tj_ts t /\ tj_ys t' = tj_ys t /\ tj_misc t' = tj_misc t /\ tj_dt t' = tj_dt t /\ tj_dim t' = tj_dim t /\
  tj_yds t' = tj_yds u /\ tj_ydds t' = tj_ydds u.
Proof. exact recompute_new. Qed.
Print Assumptions C60_recompute.
Theorem C60_filter : forall filt t d ys, consistent t -> (3 <= length (tj_ts t))%nat -> equidistant d (tj_ts t) -> d <> 0 -> tj_dt t = Some d ->
  samples (length (tj_ts t)) (tj_dim t) ys -> filt (Some d) (tj_ys t) = Ok ys -> exists u t',
  new_traj (tj_ts t) (V2 ys) None None None = Ok u /\ low_pass filt t = (t', Ok tt) /\ consistent t' /\
  tj_ts t' = tj_ts t /\ tj_ys t' = ys /\ tj_misc t' = tj_misc t /\ tj_dt t' = tj_dt t /\ tj_dim t' = tj_dim t /\
  tj_yds t' = tj_yds u /\ tj_ydds t' = tj_ydds u.
Proof. exact low_pass_new. Qed.
Print Assumptions C60_filter.
Example C60_recompute_case : consistent ex_t /\ equidistant 1 (tj_ts ex_t) /\ (3 <= length (tj_ts ex_t))%nat /\ tj_dt ex_t = Some 1.
Proof.
  split; [exact ex_t_ok|]. split. { intros [|[|i]] H; cbn in *; try lia; lra. } split; [cbn; lia|reflexivity].
Qed.

(** ** C88 *)
Theorem C88_range : forall t, consistent t -> tj_ts t <> [] -> exists a, get_range_per_dim t = Ok a /\ length a = tj_dim t /\
  forall i, (i < tj_dim t)%nat ->
  (exists k l, (k < length (tj_ts t))%nat /\ (l < length (tj_ts t))%nat /\ nth i a 0 = at2 (tj_ys t) k i - at2 (tj_ys t) l i) /\
  (forall k l, (k < length (tj_ts t))%nat -> (l < length (tj_ts t))%nat -> at2 (tj_ys t) k i - at2 (tj_ys t) l i <= nth i a 0).
Proof. exact range_spec. Qed.
Print Assumptions C88_range.
Theorem C88_empty : forall t, consistent t -> tj_ts t = [] -> get_range_per_dim t = Err ValueError.
Proof. exact range_empty. Qed.
Print Assumptions C88_empty.
Example C88_case : consistent ex_t /\ tj_ts ex_t <> [] /\ tj_dim ex_t = 1%nat /\ get_range_per_dim ex_t = Ok [3 - 0].
Proof.
  split; [exact ex_t_ok|]. split; [discriminate|]. split; [reflexivity|].
  cbv -[Rmax Rmin Rplus Rminus Rmult Rdiv Ropp IZR].
  rewrite (Rmax_right 0 1), (Rmin_left 0 1), (Rmax_right 1 3), (Rmin_left 0 3) by lra. f_equal.
Qed.
