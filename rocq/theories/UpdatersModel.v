(** Model of dmpbbo/bbo/updaters.py, DistributionGaussian.py, DistributionGaussianBounded.py.
    Floats are real numbers (see DESIGN.md). *)
From Coq Require Import String.
From Verif Require Import Base.
Open Scope R_scope.

(** ** dmpbbo/bbo/updaters.py:218-277, costs_to_weights *)

(** One entry of the costs argument: a number, or a 1-D vector of cost components. *)
Inductive cost := CScalar (r : R) | CVec (l : list R).

(** updaters.py:230 [np.atleast_1d(x)[0]] *)
Definition first_cost (c : cost) : res R :=
  match c with
  | CScalar r => Ok r
  | CVec [] => Err IndexError
  | CVec (x :: _) => Ok x
  end.

(** The eliteness argument: a Python int or a float. *)
Inductive elit := EInt (z : Z) | EReal (r : R).
Definition elit_R (e : elit) : R := match e with EInt z => IZR z | EReal r => r end.

(** updaters.py:232-240, PI-BB branch: un-normalized weights. max() of an empty array raises
    ValueError. *)
Definition pibb_raw (h : R) (costs : list R) : res (list R) :=
  match costs with
  | [] => Err ValueError
  | x :: l =>
    let mx := rmax_list x l in
    let mn := rmin_list x l in
    let range := mx - mn in
    if Req_EM_T range 0 then Ok (map (fun _ => 1) costs)
    else Ok (map (fun c => exp (- h * (c - mn) / range)) costs)
  end.

(** updaters.py:246 [np.full(costs.size, 0.0)] *)
Definition zeros (n : nat) : list R := repeat 0 n.

(** updaters.py:247-249, CEM branch. The right-hand side 1.0/mu is evaluated first
    (ZeroDivisionError), then the slice (TypeError for a float mu). [argsort] is numpy's argsort:
    an arbitrary function here, its contract is [argsort_ok] in the specification. *)
Definition cem_raw (argsort : list R -> list nat) (mu : elit) (costs : list R) : res (list R) :=
  let indices := argsort costs in
  let weights := zeros (length costs) in
  if Req_EM_T (elit_R mu) 0 then Err ZeroDivisionError else
  match mu with
  | EReal _ => Err TypeError
  | EInt z =>
    Ok (fold_left (fun w i => set_nth w i (1 / IZR z)) (slice_to z indices) weights)
  end.

(** updaters.py:250-253, CMA-ES branch: [for ii in range(mu)]; indices[ii] raises IndexError when
    mu exceeds the number of costs. range(float) raises TypeError. *)
Fixpoint cmaes_loop (indices : list nat) (mu : Z) (iis : list nat) (w : list R) : res (list R) :=
  match iis with
  | [] => Ok w
  | ii :: iis' =>
    let* idx := nth_res indices ii in
    cmaes_loop indices mu iis' (set_nth w idx (ln (IZR mu + 1/2) - ln (INR ii + 1)))
  end.

Definition cmaes_raw (argsort : list R -> list nat) (mu : elit) (costs : list R)
  : res (list R) :=
  let indices := argsort costs in
  let weights := zeros (length costs) in
  match mu with
  | EReal _ => Err TypeError
  | EInt z => cmaes_loop indices z (seq 0 (Z.to_nat z)) weights
  end.

(** updaters.py:275 [weights / sum(weights)]: nan (or inf) when the sum is zero, unless empty. *)
Definition normalize (w : list R) : res (list R) :=
  match w with
  | [] => Ok []
  | _ => if Req_EM_T (rsum w) 0 then Err NonFinite else Ok (map (fun x => x / rsum w) w)
  end.

(** updaters.py:218-277. The recursive call for unknown methods (l.261) is inlined: the costs are
    scalars by then, so the second extraction of the first components is the identity. *)
Definition costs_to_weights (argsort : list R -> list nat)
    (costs : list cost) (weighting_method : string) (eliteness : elit) : res (list R) :=
  let* cs := mapM first_cost costs in
  let* w :=
    if String.eqb weighting_method "PI-BB" then pibb_raw (elit_R eliteness) cs
    else if String.eqb weighting_method "CEM" then cem_raw argsort eliteness cs
    else if String.eqb weighting_method "CMA-ES" then cmaes_raw argsort eliteness cs
    else pibb_raw (elit_R eliteness) cs in
  normalize w.

(** ** dmpbbo/bbo/DistributionGaussian.py and DistributionGaussianBounded.py *)

(** DistributionGaussianBounded.py:27-35: lower_bound / upper_bound arguments. *)
Inductive bound := BNone | BScal (r : R) | BArr (l : list R).

(** The two classes: [d_bounds = None] is DistributionGaussian, [Some (lo,up)] the bounded one. *)
Record dist := Dist { d_mean : list R; d_covar : mat; d_bounds : option (bound * bound) }.

(** Raw constructor arguments: a scalar, a 1-D array, or (for covar) a 2-D array. *)
Inductive nd := NScal (r : R) | NVec (l : list R) | NMat (m : mat).

(** np.atleast_1d followed by use as a vector; np.atleast_2d. *)
Definition atleast_2d (a : nd) : mat :=
  match a with
  | NScal r => Mat 1 [[r]]
  | NVec l => Mat (length l) [l]
  | NMat m => m
  end.
Definition nd_size (a : nd) : nat :=
  match a with NScal _ => 1 | NVec l => length l | NMat m => nrows m * mcols m end.

(** DistributionGaussian.py:71-83 constructor: only the number of rows of covar is compared with
    the size of mean. A 2-D mean is not modelled (Unmodelled). *)
Definition mk_dist (mean covar : nd) (bounds : option (bound * bound)) : res dist :=
  let c := atleast_2d covar in
  match mean with
  | NMat _ => Err Unmodelled
  | NScal r => if Nat.eqb 1 (nrows c) then Ok (Dist [r] c bounds) else Err ValueError
  | NVec l => if Nat.eqb (length l) (nrows c) then Ok (Dist l c bounds) else Err ValueError
  end.

(** numpy clip of one value: lower bound first, then upper bound (np.clip = minimum(maximum)). *)
Definition clip1 (lo up : option R) (x : R) : R :=
  let y := match lo with Some l => Rmax x l | None => x end in
  match up with Some u => Rmin y u | None => y end.

(** the bound for column j; an array bound must have one entry per column (or a single entry,
    which numpy broadcasts). *)
Definition bound_at (b : bound) (j : nat) : option R :=
  match b with
  | BNone => None
  | BScal r => Some r
  | BArr [r] => Some r
  | BArr l => nth_error l j
  end.
Definition bound_fits (b : bound) (cols : nat) : bool :=
  match b with
  | BArr l => orb (Nat.eqb (length l) 1) (Nat.eqb (length l) cols)
  | _ => true
  end.

(** DistributionGaussianBounded.py:44-47 [samples.clip(lower, upper)] for an arbitrary result
    [samples] of the random generator. clip(None, None) raises ValueError (numpy < 2.1); array
    bounds of another size do not broadcast (a single column with longer bounds would be
    broadcast to more columns: Unmodelled). *)
Definition clip_samples (samples : mat) (lo up : bound) : res mat :=
  match lo, up with
  | BNone, BNone => Err ValueError
  | _, _ =>
    if andb (bound_fits lo (mcols samples)) (bound_fits up (mcols samples)) then
      Ok (Mat (mcols samples)
            (map (fun row => map2 (fun j x => clip1 (bound_at lo j) (bound_at up j) x)
                                  (seq 0 (mcols samples)) row) (mrows samples)))
    else if Nat.eqb (mcols samples) 1 then Err Unmodelled else Err ValueError
  end.

(** DistributionGaussian.generate_samples (DistributionGaussian.py:85-91) calls the random
    generator [rng] (arbitrary); DistributionGaussianBounded clips its result. *)
Definition generate_samples (rng : list R -> mat -> nat -> mat) (d : dist) (n : nat) : res mat :=
  let s := rng (d_mean d) (d_covar d) n in
  match d_bounds d with
  | None => Ok s
  | Some (lo, up) => clip_samples s lo up
  end.

(** ** np.average(samples, 0, weights): weighted average of the rows. ValueError if the number of
    weights differs from the number of rows, ZeroDivisionError if they sum to zero. *)
Definition average_rows (samples : mat) (w : list R) : res (list R) :=
  if negb (Nat.eqb (length w) (nrows samples)) then Err ValueError else
  if Req_EM_T (rsum w) 0 then Err ZeroDivisionError else
  Ok (map (fun j => rsum (map2 (fun wi row => wi * nth j row 0) w (mrows samples)) / rsum w)
          (seq 0 (mcols samples))).

(** updaters.py:53-74, UpdaterMean.update_distribution *)
Definition update_mean (argsort : list R -> list nat) (method : string) (e : elit)
    (d : dist) (samples : mat) (costs : list cost) : res (dist * list R) :=
  let* weights := costs_to_weights argsort costs method e in
  let* mean_new := average_rows samples weights in
  Ok (Dist mean_new (d_covar d) (d_bounds d), weights).

Definition mscal (c : R) (m : mat) : mat := Mat (mcols m) (map (map (fun x => c * x)) (mrows m)).

(** updaters.py:94-118, UpdaterCovarDecay.update_distribution *)
Definition update_covar_decay (argsort : list R -> list nat) (method : string) (e : elit)
    (decay : R) (d : dist) (samples : mat) (costs : list cost) : res (dist * list R) :=
  let* weights := costs_to_weights argsort costs method e in
  let* mean_new := average_rows samples weights in
  let covar_new := mscal (decay * decay) (d_covar d) in
  Ok (Dist mean_new covar_new (d_bounds d), weights).

(** diagonal_max / diagonal_min: a scalar or an array *)
Inductive level := LScal (r : R) | LArr (l : list R).
Definition level_at (l : level) (i : nat) : res R :=
  match l with LScal r => Ok (r ^ 2) | LArr a => let* r := nth_res a i in Ok (r ^ 2) end.

Record covar_adapt := CovarAdapt {
  ca_method : string; ca_elit : elit;
  ca_max : option level; ca_min : option level;
  ca_diag_only : bool; ca_lr : R }.

(** updaters.py:125-145, constructor check of the learning rate *)
Definition mk_covar_adapt (u : covar_adapt) : res covar_adapt :=
  if Rlt_dec 1 (ca_lr u) then Err ValueError
  else if Rlt_dec (ca_lr u) 0 then Err ValueError else Ok u.

(** updaters.py:192-196 and 204-208: the in-place clamping loops over the diagonal *)
Fixpoint clamp_max_loop (lv : level) (iis : list nat) (c : mat) : res mat :=
  match iis with
  | [] => Ok c
  | ii :: iis' =>
    let* l := level_at lv ii in
    clamp_max_loop lv iis' (if Rlt_dec l (mget c ii ii) then mset c ii ii l else c)
  end.
Fixpoint clamp_min_loop (lv : level) (iis : list nat) (c : mat) : res mat :=
  match iis with
  | [] => Ok c
  | ii :: iis' =>
    let* l := level_at lv ii in
    clamp_min_loop lv iis' (if Rlt_dec (mget c ii ii) l then mset c ii ii l else c)
  end.

(** updaters.py:169-172: eps = samples - mean, covar_new = (w * eps)^T eps *)
Definition scatter (mean : list R) (samples : mat) (w : list R) : mat :=
  let eps := map (fun row => map2 Rminus row mean) (mrows samples) in
  mtab (mcols samples) (mcols samples)
       (fun i j => rsum (map2 (fun wi e => (wi * nth i e 0) * nth j e 0) w eps)).

(** updaters.py:175-177 *)
Definition keep_diag (c : mat) : mat :=
  mtab (mcols c) (mcols c) (fun i j => if Nat.eqb i j then mget c i i else 0).

(** updaters.py:182-184 [(1 - lr) * covar_cur + lr * covar_new] *)
Definition lowpass (lr : R) (cur new : mat) : mat :=
  mtab (mcols new) (mcols new) (fun i j => (1 - lr) * mget cur i j + lr * mget new i j).

(** updaters.py:147-215, UpdaterCovarAdaptation.update_distribution. Shapes that numpy would
    broadcast in unusual ways (mean or samples with a single column, non-square or otherwise
    sized covariances) are Unmodelled. *)
Definition update_covar_adapt (argsort : list R -> list nat) (u : covar_adapt)
    (d : dist) (samples : mat) (costs : list cost) : res (dist * list R) :=
  let n_dims := mcols samples in
  let* weights := costs_to_weights argsort costs (ca_method u) (ca_elit u) in
  let* mean_new := average_rows samples weights in
  if negb (Nat.eqb (length (d_mean d)) n_dims) then
    (if orb (Nat.eqb (length (d_mean d)) 1) (Nat.eqb n_dims 1) then Err Unmodelled
     else Err ValueError) else
  let c1 := scatter (d_mean d) samples weights in
  let c2 := if ca_diag_only u then keep_diag c1 else c1 in
  let* c3 :=
    if Rlt_dec (ca_lr u) 1 then
      if andb (Nat.eqb (nrows (d_covar d)) n_dims) (Nat.eqb (mcols (d_covar d)) n_dims)
      then Ok (lowpass (ca_lr u) (d_covar d) c2) else Err Unmodelled
    else Ok c2 in
  let* c4 := match ca_max u with
             | Some lv => clamp_max_loop lv (seq 0 n_dims) c3 | None => Ok c3 end in
  let* c5 := match ca_min u with
             | Some lv => clamp_min_loop lv (seq 0 n_dims) c4 | None => Ok c4 end in
  Ok (Dist mean_new c5 (d_bounds d), weights).

(** ** The three updaters behind one interface (updaters.py:24-37) *)
Inductive updater :=
  | UMean (method : string) (e : elit)
  | UDecay (method : string) (e : elit) (decay : R)
  | UAdapt (u : covar_adapt).

Definition update_distribution (argsort : list R -> list nat) (u : updater)
    (d : dist) (samples : mat) (costs : list cost) : res (dist * list R) :=
  match u with
  | UMean m e => update_mean argsort m e d samples costs
  | UDecay m e dc => update_covar_decay argsort m e dc d samples costs
  | UAdapt a => update_covar_adapt argsort a d samples costs
  end.

(** A history of updates, as performed by run_optimization.py:48-66: each update starts from the
    distribution returned by the previous one. *)
Fixpoint update_history (argsort : list R -> list nat) (u : updater) (d : dist)
    (hist : list (mat * list cost)) : res dist :=
  match hist with
  | [] => Ok d
  | (s, c) :: hist' =>
    let* dw := update_distribution argsort u d s c in
    update_history argsort u (fst dw) hist'
  end.
