(** Specification vocabulary for the function approximators. Of the model it uses only the type
    [input] of arguments: vectors [In1] and matrices [In2]. *)
From Verif Require Import Base ParamModel.
Open Scope list_scope.
Open Scope R_scope.

(** ** linear models and least squares *)
Definition dot (a b : list R) : R := rsum (map2 Rmult a b).
Definition sqnorm (a : list R) : R := rsum (map (fun x => x^2) a).
(** the weighted sum of squared errors of a model [f] on samples [xs] with targets [ys] *)
Definition wsse (f : list R -> R) (xs : list (list R)) (ys ws : list R) : R :=
  sumn (length xs) (fun i => nth i ws 0 * (f (nth i xs []) - nth i ys 0)^2).
(** the affine function with given slope and offset *)
Definition affine (slope : list R) (offset : R) (x : list R) : R := dot x slope + offset.
(** regularized weighted squared error of an affine model *)
Definition objective (xs : list (list R)) (ys ws : list R) (lambda : R) (slope : list R) (offset : R) : R :=
  wsse (affine slope offset) xs ys ws + lambda * (sqnorm slope + offset^2).
Definition ones (n : nat) : list R := repeat 1 n.

(** ** basis functions *)
(** np.exp underflows: it is only known to be non-negative, at most 1 for arguments that are not
    positive, and 1 at 0 *)
Definition exp_like (ex : R -> R) : Prop :=
  ex 0 = 1 /\ forall x, x <= 0 -> 0 <= ex x <= 1.
(** the Gaussian with center c and standard deviations w *)
Definition gaussian (c w x : list R) : R :=
  exp (- rsum (map2 (fun d w => (d / w)^2) (map2 Rminus x c) w) / 2).

(** ** grids *)
(** all combinations of one element of each list, in lexicographic order *)
Fixpoint grid {A} (ls : list (list A)) : list (list A) :=
  match ls with
  | [] => [[]]
  | l :: ls' => flat_map (fun c => map (cons c) (grid ls')) l
  end.
(** n equidistant values from lo to hi; one value: lo *)
Definition equispaced (lo hi : R) (n : nat) (l : list R) : Prop :=
  length l = n /\
  (forall i, (i < n)%nat -> nth i l 0 = lo + (hi - lo) * (INR i / INR (n - 1))) /\
  (n = 1%nat -> l = [lo]).
(** the smallest and largest element of column d *)
Definition column_range (xs : list (list R)) (d : nat) (lo hi : R) : Prop :=
  In lo (map (fun x => nth d x 0) xs) /\ In hi (map (fun x => nth d x 0) xs) /\
  Forall (fun x => lo <= nth d x 0 <= hi) xs.

(** ** training data *)
(** [xs] are samples of dimension [d] *)
Definition samples (d : nat) (xs : list (list R)) : Prop := xs <> [] /\ Forall (fun x => length x = d) xs.
(** one target and one non-negative weight per sample *)
Definition weighted_data (d : nat) (xs : list (list R)) (ys ws : list R) : Prop :=
  samples d xs /\ length ys = length xs /\ length ws = length xs /\ Forall (fun w => 0 <= w) ws.
(** [best u d xs ys ws lambda slope offset]: the affine model (linear, without offset, if [u] is
    false) has the smallest regularized weighted squared error, and every other one a larger error *)
Definition best (u : bool) (d : nat) (xs : list (list R)) (ys ws : list R) (lambda : R)
           (slope : list R) (offset : R) : Prop :=
  length slope = d /\ (u = false -> offset = 0) /\
  forall s o, length s = d -> (u = false -> o = 0) ->
    objective xs ys ws lambda slope offset <= objective xs ys ws lambda s o /\
    (objective xs ys ws lambda s o = objective xs ys ws lambda slope offset -> s = slope /\ o = offset).
(** the samples with positive weight determine an affine (linear) function *)
Definition determined (u : bool) (d : nat) (xs : list (list R)) (ws : list R) : Prop :=
  forall s o, length s = d -> (u = false -> o = 0) ->
    (forall i, (i < length xs)%nat -> 0 < nth i ws 0 -> affine s o (nth i xs []) = 0) ->
    s = repeat 0 d /\ o = 0.

(** ** neighbours and degenerate inputs *)
(** two centers that differ in dimension [d] only, with no other center between them there *)
Definition neighbours (cs : list (list R)) (d : nat) (a b : list R) : Prop :=
  In a cs /\ In b cs /\ (forall k, k <> d -> nth k a 0 = nth k b 0) /\ nth d a 0 < nth d b 0 /\
  (forall c, In c cs -> ~ (nth d a 0 < nth d c 0 < nth d b 0)).
(** the point halfway between two points *)
Definition midpoint (a b : list R) : list R := map2 (fun x y => (x + y) / 2) a b.
(** in each dimension there is one basis function, or the inputs differ *)
Definition spread (d : nat) (xs : list (list R)) (ns : list nat) : Prop :=
  forall k, (k < d)%nat -> nth k ns 0%nat = 1%nat \/
    exists x y, In x xs /\ In y xs /\ nth k x 0 <> nth k y 0.
(** one positive number of basis functions per dimension *)
Definition per_dim (d : nat) (ns : list nat) : Prop := length ns = d /\ Forall (fun n => (0 < n)%nat) ns.

(** ** models with Gaussian basis functions, centers [cs] and widths [ws] *)
Definition gaussians (cs ws : list (list R)) (x : list R) : list R := map2 (fun c w => gaussian c w x) cs ws.
(** the weighted sum of the basis functions *)
Definition rbf_sum (cs ws : list (list R)) (weights : list R) (x : list R) : R := dot (gaussians cs ws x) weights.
(** the share of each basis function in the sum of all *)
Definition shares (cs ws : list (list R)) (x : list R) : list R :=
  map (fun g => g / rsum (gaussians cs ws x)) (gaussians cs ws x).
(** the values of lines (slope and offset) at x *)
Definition line_values (lines : list (list R * R)) (x : list R) : list R :=
  map (fun l => affine (fst l) (snd l) x) lines.
(** the lines, weighted with the shares of their basis functions *)
Definition lwr_sum (cs ws : list (list R)) (lines : list (list R * R)) (x : list R) : R :=
  dot (line_values lines x) (shares cs ws x).
(** the regularized squared error of weights on training data *)
Definition rbf_error (cs ws : list (list R)) (xs : list (list R)) (ys : list R) (lambda : R) (weights : list R) : R :=
  wsse (rbf_sum cs ws weights) xs ys (ones (length xs)) + lambda * sqnorm weights.

(** there are at least n different samples *)
Definition at_least (n : nat) (xs : list (list R)) : Prop := exists l, NoDup l /\ incl l xs /\ length l = n.

(** the weights of n samples, 1 each if none are given *)
Definition weights_or_ones (w : option (list R)) (n : nat) : list R := match w with None => ones n | Some ws => ws end.
(** what training with basis functions needs: one target per sample, a number of basis functions for
    each dimension, inputs that differ where there are several, and a height between 0 and 1 *)
Record grid_data (d : nat) (xs : list (list R)) (ys : list R) (ns : list nat) (h : R) : Prop := {
  gd_d : (0 < d)%nat; gd_xs : samples d xs; gd_ys : length ys = length xs; gd_ns : per_dim d ns;
  gd_spread : spread d xs ns; gd_h : 0 < h < 1 }.
(** a vector as a matrix with one column *)
Definition column (l : list R) : mat := Mat 1 (map (fun x => [x]) l).
(** targets can be given as a vector or as a matrix with one column *)
Definition targets_are (t : input) (ys : list R) : Prop :=
  t = In1 ys \/ t = In2 (Mat 1 (map (fun y => [y]) ys)).
