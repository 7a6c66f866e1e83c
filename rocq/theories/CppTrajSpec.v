(** Vocabulary for the properties of C++ trajectories and of the files exchanged with Python (C99, C100). *)
From Coq Require Import String.
From Verif Require Import Base TrajModel TrajSpec CppTrajModel.
Open Scope R_scope.

(** n time steps, d dimensions and k misc variables *)
Definition c_consistent (n d k : nat) (c : ctraj) : Prop :=
  length (ct_ts c) = n /\ samples n d (ct_ys c) /\ samples n d (ct_yds c) /\ samples n d (ct_ydds c) /\ samples n k (ct_misc c).
(** the Python and the C++ trajectory contain the same numbers *)
Definition same_data (t : traj) (c : ctraj) : Prop :=
  tj_ts t = ct_ts c /\ tj_ys t = ct_ys c /\ tj_yds t = ct_yds c /\ tj_ydds t = ct_ydds c /\
  tj_dim t = c_dim c /\ misc_cols t = c_dim_misc c /\
  forall k j, (k < length (tj_ts t))%nat -> (j < misc_cols t)%nat -> misc_at t k j = at2 (ct_misc c) k j.
(** rounding to multiples of u *)
Definition decimals (u : R) (rnd : R -> R) : Prop := forall x, exists z : Z, rnd x = IZR z * u /\ Rabs (rnd x - x) <= u / 2.
(** all numbers of c are those of t, up to e *)
Definition near (e : R) (t : traj) (c : ctraj) : Prop :=
  length (ct_ts c) = length (tj_ts t) /\ c_dim c = tj_dim t /\ c_dim_misc c = misc_cols t /\
  forall k, (k < length (tj_ts t))%nat ->
    Rabs (nth k (ct_ts c) 0 - nth k (tj_ts t) 0) <= e /\
    (forall i, (i < tj_dim t)%nat -> Rabs (at2 (ct_ys c) k i - at2 (tj_ys t) k i) <= e /\
       Rabs (at2 (ct_yds c) k i - at2 (tj_yds t) k i) <= e /\ Rabs (at2 (ct_ydds c) k i - at2 (tj_ydds t) k i) <= e) /\
    (forall j, (j < misc_cols t)%nat -> Rabs (at2 (ct_misc c) k j - misc_at t k j) <= e).
Definition c_near (e : R) (c c' : ctraj) : Prop :=
  length (ct_ts c') = length (ct_ts c) /\ c_dim c' = c_dim c /\ c_dim_misc c' = c_dim_misc c /\
  forall k, (k < length (ct_ts c))%nat ->
    Rabs (nth k (ct_ts c') 0 - nth k (ct_ts c) 0) <= e /\
    (forall i, (i < c_dim c)%nat -> Rabs (at2 (ct_ys c') k i - at2 (ct_ys c) k i) <= e /\
       Rabs (at2 (ct_yds c') k i - at2 (ct_yds c) k i) <= e /\ Rabs (at2 (ct_ydds c') k i - at2 (ct_ydds c) k i) <= e) /\
    (forall j, (j < c_dim_misc c)%nat -> Rabs (at2 (ct_misc c') k j - at2 (ct_misc c) k j) <= e).
(** an empty line *)
Definition empty_line : line := Line [] false.
(** both fail, or both succeed with the same numbers *)
Definition same_outcome (p : res traj) (c : res ctraj) : Prop :=
  match p, c with Ok t, Ok c => same_data t c | Err _, Err _ => True | _, _ => False end.
(** the second trajectory starts where the first one ends *)
Definition meets (n d : nat) (c u : ctraj) : Prop :=
  last (ct_ts c) 0 = nth 0 (ct_ts u) 0 /\
  forall i, (i < d)%nat -> at2 (ct_ys c) (n - 1) i = at2 (ct_ys u) 0 i /\ at2 (ct_yds c) (n - 1) i = at2 (ct_yds u) 0 i /\ at2 (ct_ydds c) (n - 1) i = at2 (ct_ydds u) 0 i.
(** the samples of c, then those of u but the first *)
Definition c_joined (n : nat) (c u r : ctraj) : Prop :=
  ct_ts r = (ct_ts c ++ tl (ct_ts u))%list /\
  (forall k i, at2 (ct_ys r) k i = if Nat.ltb k n then at2 (ct_ys c) k i else at2 (ct_ys u) (k - n + 1) i) /\
  (forall k i, at2 (ct_yds r) k i = if Nat.ltb k n then at2 (ct_yds c) k i else at2 (ct_yds u) (k - n + 1) i) /\
  (forall k i, at2 (ct_ydds r) k i = if Nat.ltb k n then at2 (ct_ydds c) k i else at2 (ct_ydds u) (k - n + 1) i) /\
  (forall k j, (j < c_dim_misc c)%nat -> at2 (ct_misc r) k j = if Nat.ltb k n then at2 (ct_misc c) k j else at2 (ct_misc u) (k - n + 1) j).
(** the length of row k of a matrix *)
Definition norm_row (m : mat) (k : nat) : R := sqrt (rsum (map (fun x => x * x) (nth k (mrows m) []))).
(** up to a relative error of 1e-12 and an absolute one of 2e-12, m' starts with the last of the n rows of m *)
Definition continues (n d : nat) (m m' : mat) : Prop :=
  forall i, (i < d)%nat -> Rabs (at2 m (n - 1) i - at2 m' 0 i) <= eps * (2 + norm_row m (n - 1)).
