(** Recomputed derivatives and ranges of trajectories. *)
From Coq Require Import String.
From Verif Require Import Base BaseLemmas TrajModel TrajSpec TrajProofs TrajProofs2 TrajProofs3 TrajProofs4 TrajProofs5 TrajProofs7.
Open Scope R_scope.

Lemma recompute_new t d : consistent t -> (3 <= length (tj_ts t))%nat -> equidistant d (tj_ts t) -> d <> 0 -> tj_dt t = Some d -> exists u t',
  new_traj (tj_ts t) (V2 (tj_ys t)) None None None = Ok u /\ recompute_derivatives t = (t', Ok tt) /\ consistent t' /\
  tj_ts t' = tj_ts t /\ tj_ys t' = tj_ys t /\ tj_misc t' = tj_misc t /\ tj_dt t' = tj_dt t /\ tj_dim t' = tj_dim t /\
  tj_yds t' = tj_yds u /\ tj_ydds t' = tj_ydds u.
Proof.
  intros Hc Hn He Hd Hdt. pose proof Hc as (Sy & _ & _ & Sm). set (n := length (tj_ts t)) in *.
  destruct (diffnc_entries n (tj_dim t) (tj_ys t) d Sy Hn Hd) as (yds & E1 & S1 & _).
  destruct (diffnc_entries n (tj_dim t) yds d S1 Hn Hd) as (ydds & E2 & S2 & _).
  assert (En : new_traj (tj_ts t) (V2 (tj_ys t)) None None None = Ok (Traj (tj_ts t) (Some d) (mcols (tj_ys t)) (tj_ys t) yds ydds None)).
  { unfold new_traj. cbn [rows_of]. unfold nrows. pose proof Sy as (C & N & _). fold n. rewrite N, Nat.eqb_refl. cbn [column bind derivative].
    rewrite (dt_mean_equi (tj_ts t) d He) by (unfold n in *; lia). rewrite E1. cbn [bind]. rewrite E2. reflexivity. }
  exists (Traj (tj_ts t) (Some d) (mcols (tj_ys t)) (tj_ys t) yds ydds None).
  unfold recompute_derivatives. rewrite Hdt, E1. cbv beta iota. rewrite E2. eexists. split; [exact En|]. split; [reflexivity|].
  cbn [set_data tj_ts tj_ys tj_yds tj_ydds tj_misc tj_dt tj_dim]. split.
  { unfold consistent. cbn [tj_ts tj_ys tj_yds tj_ydds tj_misc tj_dt tj_dim]. fold n. auto. }
  auto 10.
Qed.
(** the filter replaces the positions and then the derivatives *)
Lemma low_pass_new filt t d ys : consistent t -> (3 <= length (tj_ts t))%nat -> equidistant d (tj_ts t) -> d <> 0 -> tj_dt t = Some d ->
  samples (length (tj_ts t)) (tj_dim t) ys -> filt (Some d) (tj_ys t) = Ok ys -> exists u t',
  new_traj (tj_ts t) (V2 ys) None None None = Ok u /\ low_pass filt t = (t', Ok tt) /\ consistent t' /\
  tj_ts t' = tj_ts t /\ tj_ys t' = ys /\ tj_misc t' = tj_misc t /\ tj_dt t' = tj_dt t /\ tj_dim t' = tj_dim t /\
  tj_yds t' = tj_yds u /\ tj_ydds t' = tj_ydds u.
Proof.
  intros Hc Hn He Hd Hdt Hs Hf. unfold low_pass. rewrite (dt_mean_equi (tj_ts t) d He) by lia. rewrite Hf.
  set (t1 := set_data t (tj_ts t) ys (tj_yds t) (tj_ydds t) (tj_misc t)).
  assert (C1 : consistent t1). { pose proof Hc as (A & B & C & D). unfold consistent, t1. cbn. auto. }
  exact (recompute_new t1 d C1 Hn He Hd Hdt).
Qed.

(** ranges *)
Lemma range_spec t : consistent t -> tj_ts t <> [] -> exists a, get_range_per_dim t = Ok a /\ length a = tj_dim t /\
  forall i, (i < tj_dim t)%nat ->
  (exists k l, (k < length (tj_ts t))%nat /\ (l < length (tj_ts t))%nat /\ nth i a 0 = at2 (tj_ys t) k i - at2 (tj_ys t) l i) /\
  (forall k l, (k < length (tj_ts t))%nat -> (l < length (tj_ts t))%nat -> at2 (tj_ys t) k i - at2 (tj_ys t) l i <= nth i a 0).
Proof.
  intros ((C & N & _) & _) Hne. unfold get_range_per_dim, at2. rewrite C. destruct (mrows (tj_ys t)) as [|r rows].
  { destruct (tj_ts t); [now elim Hne|discriminate]. }
  eexists. split; [reflexivity|]. split; [now rewrite map_length, seq_length|]. intros i Hi.
  rewrite (nth_map_seq (fun j => rmax_list (nth j r 0) (col j rows) - rmin_list (nth j r 0) (col j rows))) by assumption. cbv beta. rewrite <- N.
  assert (M : forall x, In x (nth i r 0 :: col i rows) <-> exists k, (k < length (r :: rows))%nat /\ nth i (nth k (r :: rows) []) 0 = x).
  { intros x. change (nth i r 0 :: col i rows) with (map (fun r => nth i r 0) (r :: rows)). rewrite in_map_iff. split.
    - intros (y & E & H). destruct (In_nth_lt _ _ [] H) as (k & Hk & Ek). exists k. split; [assumption|]. now rewrite Ek.
    - intros (k & Hk & E). exists (nth k (r :: rows) []). split; [exact E|now apply nth_In]. }
  split.
  - destruct (proj1 (M _) (rmax_list_in (col i rows) (nth i r 0))) as (k & Hk & Ek), (proj1 (M _) (rmin_list_in (col i rows) (nth i r 0))) as (l & Hl & El).
    exists k, l. rewrite Ek, El. auto.
  - intros k l Hk Hl. pose proof (proj2 (M _) (ex_intro _ k (conj Hk eq_refl))) as A. pose proof (proj2 (M _) (ex_intro _ l (conj Hl eq_refl))) as B.
    assert (U := rmax_list_ub (col i rows) (nth i r 0) (nth i (nth k (r :: rows) []) 0)).
    assert (V := rmin_list_lb (col i rows) (nth i r 0) (nth i (nth l (r :: rows) []) 0)).
    cbn [In] in A, B. assert (nth i (nth k (r :: rows) []) 0 <= rmax_list (nth i r 0) (col i rows)) by (apply U; destruct A; auto).
    assert (rmin_list (nth i r 0) (col i rows) <= nth i (nth l (r :: rows) []) 0) by (apply V; destruct B; auto). lra.
Qed.
Lemma range_empty t : consistent t -> tj_ts t = [] -> get_range_per_dim t = Err ValueError.
Proof. intros ((_ & N & _) & _) E. rewrite E in N. unfold get_range_per_dim. destruct (mrows (tj_ys t)); [reflexivity|discriminate]. Qed.
