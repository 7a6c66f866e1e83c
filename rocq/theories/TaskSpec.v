(** Vocabulary for the demonstration tasks (C74, C89, C90). *)
From Coq Require Import String.
From Verif Require Import Base TrajModel TrajSpec TaskModel.
Open Scope R_scope.

(** Euclidean distance of two points with n coordinates *)
Definition dist (n : nat) (a b : nat -> R) : R := sqrt (sumn n (fun i => (a i - b i) ^ 2)).
Definition point (l : list R) : nat -> R := fun i => nth i l 0.

(** row k of the times and positions is the one whose distance to the via-point counts: the first of
    the nearest rows if no time is given; otherwise the first row at or after the time (row 0 if
    there is none) *)
Definition counts (d : nat) (via : nat -> R) (time : option R) (ts : list R) (Y : nat -> nat -> R) (k : nat) : Prop :=
  match time with
  | None => (k < length ts)%nat /\ (forall i, (i < length ts)%nat -> dist d (Y k) via <= dist d (Y i) via) /\
            (forall i, (i < k)%nat -> dist d (Y k) via < dist d (Y i) via)
  | Some vt => ((k < length ts)%nat /\ vt <= nth k ts 0 /\ forall i, (i < k)%nat -> nth i ts 0 < vt) \/
               (k = 0%nat /\ forall i, (i < length ts)%nat -> nth i ts 0 < vt)
  end.

(** the rows at or after a time *)
Definition late (t : R) (ts : list R) : list nat :=
  filter (fun i => if Rle_dec t (nth i ts 0) then true else false) (seq 0 (length ts)).

(** the goal is part of the costs *)
Definition uses_goal (k : task) : Prop := 0 < k_wg k /\ k_goal k <> None.
(** ... and can be evaluated: goal and via-point have the same dimension, a goal time is given, and the
    rollout does not end before it *)
Definition goal_ready (k : task) (ts : list R) : Prop :=
  forall g, 0 < k_wg k -> k_goal k = Some g ->
  length g = length (k_via k) /\ exists gt, k_goal_time k = Some gt /\ late gt ts <> [].

(** number of rows by which the sum of squared accelerations is divided *)
Definition divisor (k : task) (ts : list R) : nat :=
  match k_goal k, k_goal_time k with
  | Some _, Some gt => if Rlt_dec 0 (k_wg k) then length (late gt ts) else length ts
  | _, _ => length ts
  end.

(** the costs: positions Y (row, dimension), accelerations A with da dimensions, sample x. Components
    with a weight that is not positive are 0. *)
Definition costs_are (k : task) (ts : list R) (Y A : nat -> nat -> R) (da : nat) (x cs : list R) : Prop :=
  let d := length (k_via k) in
  length cs = 5%nat /\
  nth 0 cs 0 = nth 1 cs 0 + nth 2 cs 0 + nth 3 cs 0 + nth 4 cs 0 /\
  (0 < k_wv k -> exists w, counts d (point (k_via k)) (k_time k) ts Y w /\
     nth 1 cs 0 = k_wv k * Rmax 0 (dist d (Y w) (point (k_via k)) - Rmax 0 (k_radius k))) /\
  (k_wv k <= 0 -> nth 1 cs 0 = 0) /\
  (0 < k_wa k -> nth 2 cs 0 =
     k_wa k * (sumn (length ts) (fun i => sumn da (fun j => A i j ^ 2)) / INR da) / INR (divisor k ts)) /\
  (k_wa k <= 0 -> nth 2 cs 0 = 0) /\
  (forall g gt, 0 < k_wg k -> k_goal k = Some g -> k_goal_time k = Some gt -> nth 3 cs 0 =
     k_wg k * (rsum (map (fun i => dist d (Y i) (point g)) (late gt ts)) / INR (length (late gt ts)))) /\
  (~ uses_goal k -> nth 3 cs 0 = 0) /\
  (0 < k_wr k -> nth 4 cs 0 = k_wr k * dist (length x) (point x) (fun _ => 0)) /\
  (k_wr k <= 0 -> nth 4 cs 0 = 0).

(** ** the arm *)
(** position of joint k of an arm at the origin, with joint angles a and link lengths l; the sum of
    the first i+1 angles is the direction of link i *)
Definition direction (a : nat -> R) (i : nat) : R := sumn (S i) a.
Definition joint_x (a l : nat -> R) (k : nat) : R := sumn k (fun i => l i * cos (direction a i)).
Definition joint_y (a l : nat -> R) (k : nat) : R := sumn k (fun i => l i * sin (direction a i)).
(** the positions of the end of the arm: coordinate 0 is x, coordinate 1 is y *)
Definition arm_end (n : nat) (a l : nat -> R) (c : nat) : R :=
  match c with O => joint_x a l n | _ => joint_y a l n end.
