(** Specification vocabulary: improvement by updates of a distribution. *)
From Coq Require Import String.
From Verif Require Import Base SessionModel UpdatersModel UpdatersSpec LoopModel LoopSpec.
Open Scope R_scope.

(** the mean of numbers, and their weighted mean for weights that sum to one *)
Definition average (cs : list R) : R := sumn (length cs) (fun i => nth i cs 0) / INR (length cs).
Definition weighted (w cs : list R) : R := sumn (length cs) (fun i => nth i w 0 * nth i cs 0).
(** methods that prefer low costs: a negative eliteness makes PI-BB prefer high costs *)
Definition prefers_low (m : string) (e : elit) : Prop := rank_method m \/ 0 <= elit_R e.

(** the point at fraction t between y and x; functions of vectors of size n that are convex, or whose level sets are *)
Definition between (t : R) (x y : list R) : list R := map2 (fun a b => t * a + (1 - t) * b) x y.
Definition convex (n : nat) (f : list R -> R) : Prop :=
  forall x y t, length x = n -> length y = n -> 0 <= t <= 1 -> f (between t x y) <= t * f x + (1 - t) * f y.
Definition convex_levels (n : nat) (f : list R -> R) : Prop :=
  forall x y t b, length x = n -> length y = n -> 0 <= t <= 1 -> f x <= b -> f y <= b -> f (between t x y) <= b.
(** the costs of the samples, by a function of the sample *)
Definition costs_by (f : list R -> R) (samples : mat) (costs : list cost) : Prop :=
  totals costs (map f (mrows samples)).

(** Euclidean distance to a point, and size of a vector *)
Definition euclid (p x : list R) : R := sqrt (sumn (length p) (fun j => (nth j x 0 - nth j p 0) ^ 2)).
Definition magnitude (x : list R) : R := sqrt (sumn (length x) (fun j => nth j x 0 ^ 2)).

(** all samples of a history of updates are within K standard deviations of the current mean, in dimension j *)
Fixpoint explores (argsort : list R -> list nat) (u : updater) (j : nat) (K : R) (d : dist) (hist : list (mat * list cost)) : Prop :=
  match hist with
  | [] => True
  | (s, c) :: hist' =>
    (j < mcols s)%nat /\
    (forall i, (i < nrows s)%nat -> Rabs (mget s i j - nth j (d_mean d) 0) <= K * sqrt (mget (d_covar d) j j)) /\
    forall d' w, update_distribution argsort u d s c = Ok (d', w) -> explores argsort u j K d' hist'
  end.
(** the mean after an update costs at most the weighted mean of the costs of the samples, and this at most their mean *)
Definition improves (f : list R -> R) (a : upd_rec) : Prop :=
  totals (u_costs a) (map f (mrows (u_samples a))) /\
  f (d_mean (u_new a)) <= weighted (u_weights a) (map f (mrows (u_samples a))) <= average (map f (mrows (u_samples a))).
