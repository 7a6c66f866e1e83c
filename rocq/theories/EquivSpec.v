(** Specification vocabulary: the same optimization in other coordinates of the search space, or with
    costs in another unit. *)
From Coq Require Import String.
From Verif Require Import Base SessionModel UpdatersModel UpdatersSpec LoopModel LoopSpec.
Open Scope R_scope.

Definition res_map {A B} (f : A -> B) (r : res A) : res B := match r with Ok a => Ok (f a) | Err e => Err e end.

(** ** x becomes c * x + v, in every dimension *)
Definition affine_row (c : R) (v row : list R) : list R := map2 (fun x s => c * x + s) row v.
Definition affine_mat (c : R) (v : list R) (m : mat) : mat := Mat (mcols m) (map (affine_row c v) (mrows m)).
(** a bound that is one number becomes one number per dimension *)
Definition affine_bound (c : R) (v : list R) (b : bound) : bound :=
  match b with
  | BNone => BNone
  | BScal r | BArr [r] => BArr (map (fun s => c * r + s) v)
  | BArr l => BArr (affine_row c v l)
  end.
(** the covariance has the unit of a square *)
Definition affine_dist (c : R) (v : list R) (d : dist) : dist :=
  Dist (affine_row c v (d_mean d)) (mscal (c * c) (d_covar d))
       (option_map (fun b => (affine_bound c v (fst b), affine_bound c v (snd b))) (d_bounds d)).
(** the limits on the exploration have the unit of the search space *)
Definition scale_level (c : R) (l : level) : level :=
  match l with LScal r => LScal (c * r) | LArr a => LArr (map (fun x => c * x) a) end.
Definition scale_updater (c : R) (u : updater) : updater :=
  match u with
  | UAdapt a => UAdapt (CovarAdapt (ca_method a) (ca_elit a) (option_map (scale_level c) (ca_max a))
                          (option_map (scale_level c) (ca_min a)) (ca_diag_only a) (ca_lr a))
  | _ => u
  end.
Definition affine_event {CV} (c : R) (v : list R) (e : event CV) : event CV :=
  match e with
  | EGen d n m => EGen (affine_dist c v d) n (affine_mat c v m)
  | EEval x k => EEval (affine_row c v x) k
  | EUpd d m cs d' w => EUpd (affine_dist c v d) (affine_mat c v m) cs (affine_dist c v d') w
  | ERoll x r => ERoll (affine_row c v x) r
  | EEvalR r x k => EEvalR r (affine_row c v x) k
  end.

(** ** the costs change *)
Definition cost_event {CV} (f : cost -> cost) (e : event CV) : event CV :=
  match e with
  | EEval x k => EEval x (f k)
  | EUpd d m cs d' w => EUpd d m (map f cs) d' w
  | EEvalR r x k => EEvalR r x (f k)
  | _ => e
  end.
(** f changes the total cost r to g r; entries without a total cost are left as they are *)
Definition rescores (g : R -> R) (f : cost -> cost) : Prop :=
  f (CVec []) = CVec [] /\ forall k r, has_total k r -> has_total (f k) (g r).

(** ** The world of an optimization: a random generator (numpy.random.multivariate_normal), arbitrary
    functions that evaluate costs and perform rollouts, and one of the updaters *)
Definition bbo_oracles {CV S : Type} (rng : S -> list R -> mat -> Z -> S * res mat)
    (evaluate : S -> list R -> S * res cost) (argsort : list R -> list nat) (u : updater)
    (roll : S -> list R -> S * res CV) (evalr : S -> CV -> list R -> S * res cost) : oracles CV S :=
  Oracles CV S
    (fun s d n => let '(s', r) := rng s (d_mean d) (d_covar d) n in
                  (s', let* m := r in generate_samples (fun _ _ _ => m) d (Z.to_nat n)))
    evaluate
    (fun s d m cs => (s, update_distribution argsort u d m cs))
    roll evalr.

(** the generator returns one row of the right size per sample *)
Definition sized {S} (rng : S -> list R -> mat -> Z -> S * res mat) : Prop :=
  forall s mean C n s' m, rng s mean C n = (s', Ok m) -> mat_wf m /\ mcols m = length mean.
(** drawing from the transformed distribution gives the transformed samples: multivariate_normal
    multiplies standard normal numbers with a square root of the covariance and adds the mean *)
Definition commutes {S} (rng : S -> list R -> mat -> Z -> S * res mat) (c : R) (v : list R) : Prop :=
  forall s mean C n, length mean = length v ->
    rng s (affine_row c v mean) (mscal (c * c) C) n =
    (fst (rng s mean C n), res_map (affine_mat c v) (snd (rng s mean C n))).

(** bounds have one entry, or one per dimension *)
Definition bounds_fit (d : dist) : Prop :=
  match d_bounds d with
  | None => True
  | Some (lo, up) => bound_fits lo (length (d_mean d)) = true /\ bound_fits up (length (d_mean d)) = true
  end.

(** what the run returns and which calls it makes, whatever the session stores *)
Definition same_run {CV P S A} (f : A -> A) (ev : event CV -> event CV) (r1 r2 : st CV P S * res A) : Prop :=
  snd r2 = res_map f (snd r1) /\ st_out (fst r2) = st_out (fst r1) /\
  st_trace (fst r2) = map ev (st_trace (fst r1)).
(** no two samples of an update have the same total cost *)
Definition no_ties {CV} (tr : list (event CV)) : Prop :=
  forall d m cs d' w rs, In (EUpd d m cs d' w) tr -> totals cs rs -> NoDup rs.
